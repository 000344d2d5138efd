(** Running out of memory: what a function has done to the heap when an
    allocation fails, compared with the same function with enough memory. *)

From Coq Require Import Ascii String List NArith ZArith Bool Arith Lia Permutation.
From Verif Require Import Base ModelUtil ModelBase64 ModelAddress ModelAttachment ModelMessage ModelReply ModelHeap ModelScarce
  ProofText ProofHeap.
Import ListNotations.
Open Scope nat_scope.

(** ** Heaps *)

Definition wfh (h : heap) : Prop :=
  NoDup (map fst (h_live h)) /\ Forall (fun x => fst x < h_next h) (h_live h).

(** Below address [n]: the blocks of [h] are all in [h'] ([keep]), or those of
    [h'] were all in [h] ([shrink]). *)
Definition keep (n : nat) (h h' : heap) : Prop :=
  forall a b, a < n -> lookup a (h_live h) = Some b -> lookup a (h_live h') = Some b.
Definition shrink (n : nat) (h h' : heap) : Prop := keep n h' h.

(** Code that leaves the blocks below [n] alone, and code that may free some of
    them but changes none. *)
Definition gentle {A} (n : nat) (m : H A) : Prop := forall h, wfh h -> n <= h_next h ->
  let h' := snd (m h) in wfh h' /\ h_next h <= h_next h' /\ keep n h h' /\ shrink n h h'.
Definition rough {A} (n : nat) (m : H A) : Prop := forall h, wfh h -> n <= h_next h ->
  let h' := snd (m h) in wfh h' /\ h_next h <= h_next h' /\ shrink n h h'.

(** [ms] is [mh] with allocations that may fail. *)
Definition gcut {T A} (n : nat) (ms : Mem T A) (mh : H A) : Prop := forall q h, wfh h -> n <= h_next h ->
  match ms q h with
  | (Ended o q', h') => mh h = (o, h') /\ (q = None -> q' = None)
  | (NoMemory _, h') => q <> None /\ wfh h' /\ h_next h <= h_next h' /\ keep n h h' /\ shrink n h' (snd (mh h))
  | (Terminated, _) => False
  end.
Definition rcut {T A} (n : nat) (ms : Mem T A) (mh : H A) : Prop := forall q h, wfh h -> n <= h_next h ->
  match ms q h with
  | (Ended o q', h') => mh h = (o, h') /\ (q = None -> q' = None)
  | (NoMemory _, h') => q <> None /\ wfh h' /\ h_next h <= h_next h' /\ shrink n h' (snd (mh h))
  | (Terminated, _) => q <> None
  end.

Lemma keep_refl : forall n h, keep n h h.
Proof. now intros n h a b. Qed.
Lemma keep_trans : forall n h1 h2 h3, keep n h1 h2 -> keep n h2 h3 -> keep n h1 h3.
Proof. intros n h1 h2 h3 A B a b L E. apply B; [ exact L | ]. now apply A. Qed.
Lemma keep_le : forall n m h1 h2, n <= m -> keep m h1 h2 -> keep n h1 h2.
Proof. intros n m h1 h2 L K a b La. apply K. lia. Qed.
#[global] Hint Resolve keep_refl : core.

Lemma gentle_rough : forall A n (m : H A), gentle n m -> rough n m.
Proof. intros A n m G h W L. destruct (G h W L) as (? & ? & ? & ?). now split; [ | split ]. Qed.
Lemma gcut_rcut : forall T A n (ms : Mem T A) mh, gcut n ms mh -> rcut n ms mh.
Proof.
  intros T A n ms mh G q h W L. specialize (G q h W L). destruct (ms q h) as [[o q' | t | ] h']; [ exact G | | easy ].
  destruct G as (? & ? & ? & ? & ?). now split; [ | split; [ | split ] ].
Qed.

(** ** Sequences *)

Lemma gentle_bind : forall A C n (m : H A) (k : A -> H C), gentle n m -> (forall a, gentle n (k a)) -> gentle n (hbind m k).
Proof.
  intros A C n m k G K h W L. specialize (G h W L). unfold hbind. destruct (m h) as [[a | | u | | | ] h1]; try exact G.
  cbn [snd] in G. destruct G as (W1 & L1 & K1 & S1).
  destruct (K a h1 W1) as (W2 & L2 & K2 & S2); [ lia | ]. split; [ exact W2 | ]. split; [ lia | ].
  split; [ now apply (keep_trans n _ h1) | now apply (keep_trans n _ h1) ].
Qed.
Lemma rough_bind : forall A C n (m : H A) (k : A -> H C), rough n m -> (forall a, rough n (k a)) -> rough n (hbind m k).
Proof.
  intros A C n m k G K h W L. specialize (G h W L). unfold hbind. destruct (m h) as [[a | | u | | | ] h1]; try exact G.
  cbn [snd] in G. destruct G as (W1 & L1 & S1).
  destruct (K a h1 W1) as (W2 & L2 & S2); [ lia | ]. split; [ exact W2 | ]. split; [ lia | ]. now apply (keep_trans n _ h1).
Qed.

Lemma gcut_bind : forall T A C n (ms : Mem T A) mh (ks : A -> Mem T C) kh, gcut n ms mh -> gentle n mh ->
  (forall a, gcut n (ks a) (kh a)) -> (forall a, rough n (kh a)) -> gcut n (mbind ms ks) (hbind mh kh).
Proof.
  intros T A C n ms mh ks kh G Gm K Gk q h W L. specialize (G q h W L). specialize (Gm h W L). unfold mbind, hbind.
  destruct (ms q h) as [[o q' | t | ] h1]; [ | | easy ].
  - destruct G as (G & Gq). rewrite G in Gm |- *. cbn [snd] in Gm. destruct Gm as (W1 & L1 & K1 & S1).
    destruct o as [a | | u | | | ]; try (now split). specialize (K a q' h1 W1 ltac:(lia)).
    destruct (ks a q' h1) as [[o q2 | t | ] h2]; [ | | easy ].
    + destruct K as (K & Kq). split; [ exact K | ]. intros e. now apply Kq, Gq.
    + destruct K as (N & W2 & L2 & K2 & S2).
      split; [ intros e; now apply N, Gq | split; [ exact W2 | split; [ lia | split; [ now apply (keep_trans n _ h1) | exact S2 ] ] ] ].
  - destruct G as (N & W1 & L1 & K1 & S1). split; [ exact N | ]. split; [ exact W1 | ]. split; [ exact L1 | ]. split; [ exact K1 | ].
    destruct (mh h) as [[a | | u | | | ] h2]; try exact S1. cbn [snd] in S1, Gm. destruct Gm as (W2 & L2 & _ & _).
    destruct (Gk a h2 W2) as (_ & _ & S3); [ lia | ]. now apply (keep_trans n _ h2).
Qed.
Lemma rcut_bind : forall T A C n (ms : Mem T A) mh (ks : A -> Mem T C) kh, rcut n ms mh -> rough n mh ->
  (forall a, rcut n (ks a) (kh a)) -> (forall a, rough n (kh a)) -> rcut n (mbind ms ks) (hbind mh kh).
Proof.
  intros T A C n ms mh ks kh G Gm K Gk q h W L. specialize (G q h W L). specialize (Gm h W L). unfold mbind, hbind.
  destruct (ms q h) as [[o q' | t | ] h1]; [ | | exact G ].
  - destruct G as (G & Gq). rewrite G in Gm |- *. cbn [snd] in Gm. destruct Gm as (W1 & L1 & S1).
    destruct o as [a | | u | | | ]; try (now split). specialize (K a q' h1 W1 ltac:(lia)).
    destruct (ks a q' h1) as [[o q2 | t | ] h2].
    + destruct K as (K & Kq). split; [ exact K | ]. intros e. now apply Kq, Gq.
    + destruct K as (N & W2 & L2 & S2).
      split; [ intros e; now apply N, Gq | split; [ exact W2 | split; [ lia | exact S2 ] ] ].
    + intros e. now apply K, Gq.
  - destruct G as (N & W1 & L1 & S1). split; [ exact N | ]. split; [ exact W1 | ]. split; [ exact L1 | ].
    destruct (mh h) as [[a | | u | | | ] h2]; try exact S1. cbn [snd] in S1, Gm. destruct Gm as (W2 & L2 & _).
    destruct (Gk a h2 W2) as (_ & _ & S3); [ lia | ]. now apply (keep_trans n _ h2).
Qed.

(** A function that is the last one may do what it likes. *)
Lemma gcut_lift : forall T A n (m : H A), @gcut T A n (lift m) m.
Proof. intros T A n m q h W L. unfold lift. destruct (m h) as [o h']. now split. Qed.
Lemma rcut_lift : forall T A n (m : H A), @rcut T A n (lift m) m.
Proof. intros T A n m q h W L. unfold lift. destruct (m h) as [o h']. now split. Qed.
Lemma gcut_ret : forall T A n (a : A), @gcut T A n (mret a) (hret a).
Proof. now intros T A n a q h W L. Qed.
Lemma rcut_ret : forall T A n (a : A), @rcut T A n (mret a) (hret a).
Proof. now intros T A n a q h W L. Qed.

Lemma gcut_tick : forall T A n (t : T) (ks : Mem T A) kh, gcut n ks kh -> rough n kh -> gcut n (tick t ;;+ ks) kh.
Proof.
  intros T A n t ks kh K G q h W L. unfold mbind, tick. destruct q as [[ | k] | ].
  - split; [ discriminate | ]. split; [ exact W | ]. split; [ lia | ]. split; [ auto | ]. now destruct (G h W L) as (_ & _ & S).
  - specialize (K (Some k) h W L). destruct (ks (Some k) h) as [[o q' | x | ] h']; [ | | easy ].
    + now split.
    + destruct K as (_ & K). now split.
  - apply (K None h W L).
Qed.
Lemma rcut_tick : forall T A n (t : T) (ks : Mem T A) kh, rcut n ks kh -> rough n kh -> rcut n (tick t ;;+ ks) kh.
Proof.
  intros T A n t ks kh K G q h W L. unfold mbind, tick. destruct q as [[ | k] | ].
  - split; [ discriminate | ]. split; [ exact W | ]. split; [ lia | ]. now destruct (G h W L) as (_ & _ & S).
  - specialize (K (Some k) h W L). destruct (ks (Some k) h) as [[o q' | x | ] h'].
    + now split.
    + destruct K as (_ & K). now split.
    + discriminate.
  - apply (K None h W L).
Qed.

Lemma gcut_during : forall T T' A n (g : T -> T') (ms : Mem T A) mh, gcut n ms mh -> gcut n (during g ms) mh.
Proof. intros T T' A n g ms mh G q h W L. specialize (G q h W L). unfold during. now destruct (ms q h) as [[o q' | t | ] h']. Qed.
Lemma rcut_during : forall T T' A n (g : T -> T') (ms : Mem T A) mh, rcut n ms mh -> rcut n (during g ms) mh.
Proof. intros T T' A n g ms mh G q h W L. specialize (G q h W L). unfold during. now destruct (ms q h) as [[o q' | t | ] h']. Qed.
Lemma rcut_no_throw : forall T T' A n (ms : Mem T A) mh, rcut n ms mh -> @rcut T' A n (no_throw ms) mh.
Proof.
  intros T T' A n ms mh G q h W L. specialize (G q h W L). unfold no_throw.
  destruct (ms q h) as [[o q' | t | ] h']; [ exact G | exact (proj1 G) | exact G ].
Qed.

(** ** The primitives *)

Lemma lookup_remove : forall l a x, a <> x -> lookup a (remove x l) = lookup a l.
Proof.
  induction l as [ | [y b] r IH]; intros a x N; [ reflexivity | ]. cbn. destruct (Nat.eqb_spec x y) as [-> | Ny].
  - destruct (Nat.eqb_spec a y); [ easy | reflexivity ].
  - cbn. destruct (Nat.eqb a y); [ reflexivity | now apply IH ].
Qed.
Lemma remove_incl : forall l x y, In y (remove x l) -> In y l.
Proof.
  induction l as [ | [z b] r IH]; intros x y I; [ easy | ]. cbn in *. destruct (Nat.eqb x z); [ now right | ].
  destruct I as [I | I]; [ now left | right; now apply (IH x) ].
Qed.
Lemma remove_nodup : forall l x, NoDup (map fst l) -> NoDup (map fst (remove x l)).
Proof.
  induction l as [ | [z b] r IH]; intros x N; [ exact N | ]. cbn in *. inversion N; subst. destruct (Nat.eqb x z); [ assumption | ].
  cbn. constructor; [ | now apply IH ]. intros I. apply H1. apply in_map_iff in I as (y & E & I). apply in_map_iff. exists y.
  split; [ exact E | now apply (remove_incl _ x) ].
Qed.
Lemma lookup_gone : forall l x, NoDup (map fst l) -> lookup x (remove x l) = None.
Proof.
  induction l as [ | [z b] r IH]; intros x N; [ reflexivity | ]. cbn in *. inversion N; subst. destruct (Nat.eqb_spec x z) as [-> | Nz].
  - clear - H1. induction r as [ | [w c] r IH]; [ reflexivity | ]. cbn in *. destruct (Nat.eqb_spec z w) as [-> | _]; [ tauto | ].
    apply IH. tauto.
  - cbn. destruct (Nat.eqb_spec x z); [ easy | now apply IH ].
Qed.
Lemma lookup_In : forall l a b, lookup a l = Some b -> In (a, b) l.
Proof.
  induction l as [ | [z c] r IH]; intros a b E; [ easy | ]. cbn in E. destruct (Nat.eqb_spec a z) as [-> | _].
  - injection E as ->. now left.
  - right. now apply IH.
Qed.

Lemma wfh_remove : forall h x, wfh h -> wfh (mkHeap (h_next h) (remove x (h_live h))).
Proof.
  intros h x (N & F). split; cbn; [ now apply remove_nodup | ]. apply Forall_forall. intros y I. apply remove_incl in I.
  exact (proj1 (Forall_forall _ _) F _ I).
Qed.
Lemma wfh_new : forall h b, wfh h -> wfh (mkHeap (S (h_next h)) ((h_next h, b) :: h_live h)).
Proof.
  intros h b (N & F). split; cbn.
  - constructor; [ | exact N ]. intros I. apply in_map_iff in I as (y & E & I). pose proof (proj1 (Forall_forall _ _) F _ I). cbn in *. lia.
  - constructor; [ cbn; lia | ]. eapply Forall_impl; [ | exact F ]. cbn. lia.
Qed.
Lemma wfh_put : forall h x b c, wfh h -> lookup x (h_live h) = Some b ->
  wfh (mkHeap (h_next h) ((x, c) :: remove x (h_live h))).
Proof.
  intros h x b c (N & F) E. apply lookup_In in E. split; cbn.
  - constructor; [ | now apply remove_nodup ]. pose proof (lookup_gone _ x N) as G. intros I.
    apply in_map_iff in I as ([y z] & Ey & I). cbn in Ey. subst y. rewrite (lookup_in _ x z (remove_nodup _ x N) I) in G. discriminate.
  - constructor; [ exact (proj1 (Forall_forall _ _) F _ E) | ]. apply Forall_forall. intros y I. apply remove_incl in I.
    exact (proj1 (Forall_forall _ _) F _ I).
Qed.

Lemma gentle_same : forall A n (m : H A), (forall h, snd (m h) = h) -> gentle n m.
Proof. intros A n m E h W L. cbn zeta. rewrite E. split; [ exact W | ]. split; [ lia | ]. split; red; auto. Qed.
Lemma gentle_ret : forall A n (a : A), gentle n (hret a).
Proof. intros. now apply gentle_same. Qed.
Lemma gentle_lift : forall A n (o : outcome A), gentle n (hlift o).
Proof. intros. now apply gentle_same. Qed.
Lemma gentle_undef : forall A n u, gentle n (@hundef A u).
Proof. intros. now apply gentle_same. Qed.
Lemma gentle_get : forall n q p, gentle n (h_get q p).
Proof. intros n q p. apply gentle_same. intros h. unfold h_get. destruct p as [a | ]; [ | reflexivity ]. now destruct (lookup a (h_live h)). Qed.
Lemma gentle_live : forall n p, gentle n (h_live_or_double p).
Proof. intros n p. apply gentle_same. intros h. unfold h_live_or_double. destruct p as [a | ]; [ | reflexivity ]. now destruct (lookup a (h_live h)). Qed.

Lemma gentle_new_bind : forall A n k c (f : ptr -> H A), (forall a, n <= a -> gentle n (f (Some a))) -> gentle n (hbind (h_new k c) f).
Proof.
  intros A n k c f F h W L. unfold hbind, h_new. set (h1 := mkHeap _ _). assert (W1 : wfh h1) by now apply wfh_new.
  assert (K : keep n h h1 /\ keep n h1 h).
  { split; intros a b La; cbn; (destruct (Nat.eqb_spec a (h_next h)); [ lia | auto ]). }
  destruct (F (h_next h) L h1 W1) as (W2 & L2 & K2 & S2); [ cbn; lia | ]. cbn zeta. cbn in L2.
  split; [ exact W2 | ]. split; [ cbn in *; lia | ]. destruct K as (K & S). split; [ now apply (keep_trans n _ h1) | now apply (keep_trans n _ h1) ].
Qed.
Lemma gentle_new : forall n k c, gentle n (h_new k c).
Proof.
  intros n k c h W L. exact (gentle_new_bind _ n k c (@hret ptr) (fun a _ => gentle_ret _ n (Some a)) h W L).
Qed.
Lemma gentle_put : forall n q a c, n <= a -> gentle n (h_put q (Some a) c).
Proof.
  intros n q a c La h W L. unfold h_put. destruct (lookup a (h_live h)) as [b | ] eqn:E; cbn [snd].
  - split; [ now apply (wfh_put h a b) | ]. split; [ reflexivity | ].
    split; intros x y Lx; cbn; (destruct (Nat.eqb_spec x a); [ lia | ]); rewrite lookup_remove by lia; auto.
  - now split; [ | split ].
Qed.
Lemma gentle_del : forall n k a, n <= a -> gentle n (h_del k (Some a)).
Proof.
  intros n k a La h W L. unfold h_del. destruct (lookup a (h_live h)) as [b | ]; cbn [snd]; [ | now split; [ | split ] ].
  assert (X : wfh (mkHeap (h_next h) (remove a (h_live h))) /\ h_next h <= h_next (mkHeap (h_next h) (remove a (h_live h))) /\
    keep n h (mkHeap (h_next h) (remove a (h_live h))) /\ shrink n h (mkHeap (h_next h) (remove a (h_live h)))).
  { split; [ now apply wfh_remove | ]. split; [ reflexivity | ].
    split; intros x y Lx; cbn; rewrite lookup_remove by lia; auto. }
  destruct (b_alloc b), k; cbn [snd]; first [ exact X | now split; [ | split ] ].
Qed.
Lemma rough_del : forall n k p, rough n (h_del k p).
Proof.
  intros n k [a | ] h W L; [ | now split; [ | split ] ]. unfold h_del. destruct (lookup a (h_live h)) as [b | ]; cbn [snd]; [ | now split; [ | split ] ].
  assert (X : wfh (mkHeap (h_next h) (remove a (h_live h))) /\ h_next h <= h_next (mkHeap (h_next h) (remove a (h_live h))) /\
    shrink n h (mkHeap (h_next h) (remove a (h_live h)))).
  { split; [ now apply wfh_remove | ]. split; [ reflexivity | ].
    intros x y Lx. cbn. destruct (Nat.eq_dec x a) as [-> | Nx]; [ | now rewrite lookup_remove ]. rewrite lookup_gone by exact (proj1 W). discriminate. }
  destruct (b_alloc b), k; cbn [snd]; first [ exact X | now split; [ | split ] ].
Qed.

(** ** What is built from them *)

Ltac gen :=
  repeat first
    [ progress intros
    | apply gentle_ret | apply gentle_lift | apply gentle_undef | apply gentle_get | apply gentle_live | apply gentle_new
    | (assumption)
    | match goal with
      | |- gentle _ (hbind _ _) => apply gentle_bind
      | |- gentle _ (match ?x with _ => _ end) => destruct x
      end ].

Lemma gentle_text : forall n q p, gentle n (h_text q p).
Proof. intros. unfold h_text. gen. Qed.
Lemma gentle_c_read : forall n c, gentle n (c_read c).
Proof. intros n [ | s | [a | ]]; cbn; gen. apply gentle_text. Qed.
Lemma gentle_c_dup : forall n c, gentle n (c_dup c).
Proof. intros. unfold c_dup, h_dup. gen. apply gentle_c_read. Qed.
Ltac gen1 := gen; try first [ apply gentle_text | apply gentle_c_read | apply gentle_c_dup ].
Lemma gentle_addr_new : forall n e m, gentle n (addr_new e m).
Proof. intros. unfold addr_new, h_dup. gen1. Qed.
Lemma gentle_addr_copy : forall n o, gentle n (addr_copy o).
Proof. intros. unfold addr_copy, h_dup. gen1. Qed.
Lemma gentle_att_new : forall n e m c, gentle n (att_new e m c).
Proof. intros. unfold att_new, h_dup. gen1. Qed.
Lemma gentle_att_copy : forall n o, gentle n (att_copy o).
Proof. intros. unfold att_copy, h_dup. gen1. Qed.
Lemma gentle_cred_new : forall n e m, gentle n (cred_new e m).
Proof. intros. unfold cred_new, h_dup. gen1. Qed.
Lemma gentle_cred_copy : forall n o, gentle n (cred_copy o).
Proof. intros. unfold cred_copy, h_dup. gen1. Qed.
Lemma gentle_get_addr : forall n p, gentle n (get_addr p).
Proof. intros. unfold get_addr. gen. Qed.
Lemma gentle_get_att : forall n p, gentle n (get_att p).
Proof. intros. unfold get_att. gen. Qed.
Lemma gentle_get_cred : forall n p, gentle n (get_cred p).
Proof. intros. unfold get_cred. gen. Qed.
Lemma gentle_cell : forall n p i, gentle n (cell p i).
Proof. intros. unfold cell, get_cells. gen. Qed.
Lemma gentle_loop : forall A n k i (f : nat -> H A), (forall i, gentle n (f i)) -> gentle n (h_loop k i f).
Proof. intros A n k. induction k as [ | k IH]; intros i f F; cbn; gen; try apply F. now apply IH. Qed.
Lemma rough_loop : forall A n k i (f : nat -> H A), (forall i, rough n (f i)) -> rough n (h_loop k i f).
Proof.
  intros A n k. induction k as [ | k IH]; intros i f F; cbn; [ apply gentle_rough, gentle_ret | ].
  apply rough_bind; [ apply F | ]. intros x. apply rough_bind; [ now apply IH | ]. intros l. apply gentle_rough, gentle_ret.
Qed.
Lemma gentle_new_cells : forall n k f, (forall i, gentle n (f i)) -> gentle n (new_cells k f).
Proof.
  intros n k f F. unfold new_cells. apply gentle_new_bind. intros a La. apply gentle_bind; [ now apply gentle_loop | ].
  intros l. apply gentle_bind; [ now apply gentle_put | gen ].
Qed.
Lemma gentle_arr_build : forall A n (mk : A -> H ptr) a, (forall x, gentle n (mk x)) -> gentle n (arr_build mk a).
Proof. intros A n mk [k | l] F; cbn; [ apply gentle_ret | ]. apply gentle_new_cells. intros i. destruct (nth_error l i); [ apply F | apply gentle_undef ]. Qed.
Lemma gentle_new_addr : forall n c, gentle n c -> gentle n (new_addr c).
Proof. intros. unfold new_addr. gen. Qed.
Lemma gentle_new_att : forall n c, gentle n c -> gentle n (new_att c).
Proof. intros. unfold new_att. gen. Qed.
Lemma gentle_new_cred : forall n c, gentle n c -> gentle n (new_cred c).
Proof. intros. unfold new_cred. gen. Qed.
Lemma gentle_text_build : forall n c, gentle n (text_build c).
Proof. intros. unfold text_build, h_dup. gen1. Qed.
Lemma gentle_clone_addrs : forall n a k, gentle n (clone_addrs a k).
Proof.
  intros n a [ | k]; [ apply gentle_ret | ]. apply gentle_new_cells. intros i. apply gentle_bind; [ apply gentle_cell | ]. intros p.
  apply gentle_bind; [ apply gentle_get_addr | ]. intros o. apply gentle_new_addr, gentle_addr_copy.
Qed.
Lemma gentle_clone_atts : forall n a k, gentle n (clone_atts a k).
Proof.
  intros n a [ | k]; [ apply gentle_ret | ]. apply gentle_new_cells. intros i. apply gentle_bind; [ apply gentle_cell | ]. intros p.
  apply gentle_bind; [ apply gentle_get_att | ]. intros o. apply gentle_new_att, gentle_att_copy.
Qed.
Lemma gentle_dup_or_null : forall n p, gentle n (dup_or_null p).
Proof. intros n [a | ]; cbn; unfold h_dup; gen1. Qed.
Lemma gentle_auth_or_null : forall n p, gentle n (auth_or_null p).
Proof. intros n [a | ]; cbn; gen1. Qed.
Lemma gentle_cred_or_null : forall n p, gentle n (cred_or_null p).
Proof. intros n [a | ]; [ | apply gentle_ret ]. cbn. apply gentle_bind; [ apply gentle_get_cred | ]. intros o. apply gentle_new_cred, gentle_cred_copy. Qed.
Lemma gentle_base_copy : forall n o, gentle n (base_copy o).
Proof.
  intros. unfold base_copy, h_dup. gen1; first [ apply gentle_dup_or_null | apply gentle_auth_or_null | apply gentle_cred_or_null ].
Qed.
Lemma gentle_base_new : forall n c, gentle n (base_new c).
Proof. intros. unfold base_new. gen1. Qed.
Lemma gentle_parse : forall n l, gentle n (parse_auth l).
Proof. intros. unfold parse_auth. gen. Qed.
Lemma gentle_auth_loop : forall n f t r, gentle n (auth_loop f t r).
Proof. intros n f. induction f as [ | f IH]; intros t r; cbn; gen; first [ apply gentle_parse | apply IH ]. Qed.
