(** Running out of memory, continued: every constructor and every operation
    compared with the same one with enough memory. *)

From Coq Require Import Ascii String List NArith ZArith Bool Arith Lia Permutation.
From Verif Require Import Base ModelUtil ModelBase64 ModelAddress ModelAttachment ModelMessage ModelReply ModelHeap ModelScarce
  ProofText ProofHeap ProofScarce.
Import ListNotations.
Open Scope nat_scope.

(** ** Pieces that only allocate *)

Lemma gcut_map : forall T A C n (ms : Mem T A) mh (f : A -> C), gcut n ms mh ->
  gcut n (x <+ ms ;; mret (f x)) (x <~ mh ;; hret (f x)).
Proof.
  intros T A C n ms mh f G q h W L. specialize (G q h W L). unfold mbind, hbind, mret, hret.
  destruct (ms q h) as [[o q' | t | ] h']; [ | | easy ].
  - destruct G as (-> & G). now destruct o.
  - destruct G as (N & W1 & L1 & K & S). split; [ exact N | ]. split; [ exact W1 | ]. split; [ exact L1 | ]. split; [ exact K | ].
    now destruct (mh h) as [[] h2].
Qed.
Lemma rcut_map : forall T A C n (ms : Mem T A) mh (f : A -> C), rcut n ms mh ->
  rcut n (x <+ ms ;; mret (f x)) (x <~ mh ;; hret (f x)).
Proof.
  intros T A C n ms mh f G q h W L. specialize (G q h W L). unfold mbind, hbind, mret, hret.
  destruct (ms q h) as [[o q' | t | ] h']; [ | | exact G ].
  - destruct G as (-> & G). now destruct o.
  - destruct G as (N & W1 & L1 & S). split; [ exact N | ]. split; [ exact W1 | ]. split; [ exact L1 | ]. now destruct (mh h) as [[] h2].
Qed.

Lemma gcut_dup : forall T n (t : T) s, gcut n (m_dup t s) (h_dup s).
Proof. intros. unfold m_dup. apply gcut_tick; [ apply gcut_lift | apply gentle_rough, gentle_new ]. Qed.
Lemma gcut_c_dup : forall T n (t : T) c, gcut n (m_c_dup t c) (c_dup c).
Proof.
  intros. unfold m_c_dup, c_dup. apply gcut_bind; [ apply gcut_lift | apply gentle_c_read | | ].
  - intros [s | ]; [ apply gcut_dup | apply gcut_lift ].
  - intros [s | ]; apply gentle_rough; [ apply gentle_new | apply gentle_undef ].
Qed.

Create HintDb scarce discriminated.
#[global] Hint Resolve gentle_ret gentle_lift gentle_undef gentle_get gentle_live gentle_new gentle_text gentle_c_read gentle_c_dup
  gentle_addr_new gentle_addr_copy gentle_att_new gentle_att_copy gentle_cred_new gentle_cred_copy gentle_get_addr gentle_get_att
  gentle_get_cred gentle_cell gentle_clone_addrs gentle_clone_atts gentle_dup_or_null gentle_auth_or_null gentle_cred_or_null
  gentle_base_copy gentle_base_new gentle_parse gentle_auth_loop gentle_text_build : scarce.
Lemma gentle_h_dup : forall n s, gentle n (h_dup s).
Proof. intros. apply gentle_new. Qed.
#[global] Hint Resolve gentle_h_dup gcut_dup gcut_c_dup gcut_lift gcut_ret : scarce.

Ltac gentles :=
  repeat first
    [ progress intros | solve [ auto with scarce ]
    | match goal with
      | |- rough _ (hbind _ _) => apply rough_bind
      | |- rough _ (h_del _ _) => apply rough_del
      | |- rough _ (match ?x with _ => _ end) => destruct x
      | |- rough _ _ => apply gentle_rough
      | |- gentle _ (hbind _ _) => apply gentle_bind
      | |- gentle _ (match ?x with _ => _ end) => destruct x
      | |- gentle _ (new_addr _) => apply gentle_new_addr
      | |- gentle _ (new_att _) => apply gentle_new_att
      | |- gentle _ (new_cred _) => apply gentle_new_cred
      end ].
Ltac cuts :=
  repeat first
    [ progress intros | solve [ auto with scarce ]
    | match goal with
      | |- gcut _ (mbind (tick _) _) _ => apply gcut_tick
      | |- gcut _ (mbind (lift _) _) (hbind _ _) => apply gcut_bind; [ apply gcut_lift | solve [ gentles ] | | solve [ gentles ] ]
      | |- gcut _ (mbind _ _) (hbind _ _) => apply gcut_bind; [ | solve [ gentles ] | | solve [ gentles ] ]
      | |- gcut _ (during _ _) _ => apply gcut_during
      | |- gcut _ (match ?x with _ => _ end) _ => destruct x
      | |- rough _ _ => solve [ gentles ]
      end ].

Lemma gcut_addr_new : forall n e m, gcut n (m_addr_new e m) (addr_new e m).
Proof. intros. unfold m_addr_new, addr_new. cuts. Qed.
Lemma gcut_addr_copy : forall n o, gcut n (m_addr_copy o) (addr_copy o).
Proof. intros. unfold m_addr_copy, addr_copy. cuts. Qed.
Lemma gcut_att_new : forall n f m c, gcut n (m_att_new f m c) (att_new f m c).
Proof. intros. unfold m_att_new, att_new. cuts. Qed.
Lemma gcut_att_copy : forall n o, gcut n (m_att_copy o) (att_copy o).
Proof. intros. unfold m_att_copy, att_copy. cuts. Qed.
Lemma gcut_att_setContentId : forall n o c, gcut n (m_att_setContentId o c) (att_setContentId o c).
Proof. intros. unfold m_att_setContentId, att_setContentId. cuts. Qed.
Lemma gcut_cred_new : forall n u w, gcut n (m_cred_new u w) (cred_new u w).
Proof. intros. unfold m_cred_new, cred_new. cuts. Qed.
Lemma gcut_cred_new3 : forall n u w m, gcut n (m_cred_new3 u w m) (cred_new3 u w m).
Proof. intros. unfold m_cred_new3, cred_new3. apply gcut_map, gcut_cred_new. Qed.
Lemma gcut_cred_copy : forall n o, gcut n (m_cred_copy o) (cred_copy o).
Proof. intros. unfold m_cred_copy, cred_copy. cuts. Qed.
#[global] Hint Resolve gcut_addr_new gcut_addr_copy gcut_att_new gcut_att_copy gcut_cred_new gcut_cred_new3 gcut_cred_copy : scarce.
Lemma gcut_new_addr : forall n ms mh, gcut n ms mh -> gentle n mh -> gcut n (m_new_addr ms) (new_addr mh).
Proof. intros. unfold m_new_addr, new_addr. cuts. Qed.
Lemma gcut_new_att : forall n ms mh, gcut n ms mh -> gentle n mh -> gcut n (m_new_att ms) (new_att mh).
Proof. intros. unfold m_new_att, new_att. cuts. Qed.
Lemma gcut_new_cred : forall n ms mh, gcut n ms mh -> gentle n mh -> gcut n (m_new_cred ms) (new_cred mh).
Proof. intros. unfold m_new_cred, new_cred. cuts. Qed.

(** ** Arrays *)

Lemma gcut_loop : forall A n k i made (fs : nat -> Mem unit A) fh, (forall i, gcut n (fs i) (fh i)) -> (forall i, gentle n (fh i)) ->
  gcut n (m_loop k i made fs) (h_loop k i fh).
Proof.
  intros A n k. induction k as [ | k IH]; intros i made fs fh G Ge; cbn; [ apply gcut_ret | ].
  apply gcut_bind; [ apply gcut_during, G | apply Ge | | ].
  - intros x. now apply gcut_map, IH.
  - intros x. apply rough_bind; [ now apply gentle_rough, gentle_loop | ]. intros l. apply gentle_rough, gentle_ret.
Qed.

Lemma gcut_new_cells : forall n k fs fh, (forall n i, gcut n (fs i) (fh i)) -> (forall n i, gentle n (fh i)) ->
  gcut n (m_new_cells k fs) (new_cells k fh).
Proof.
  intros n k fs fh G Ge. unfold m_new_cells. apply gcut_tick; [ | now apply gentle_rough, gentle_new_cells ].
  intros q h W L. unfold new_cells, mbind, hbind, lift, h_new, unwinding. set (a := h_next h). set (h1 := mkHeap _ _).
  assert (W1 : wfh h1) by now apply wfh_new.
  assert (K1 : keep n h h1). { intros x b Lx Ex. cbn. destruct (Nat.eqb_spec x a); [ unfold a in *; lia | exact Ex ]. }
  pose proof (gcut_loop _ (S a) k 0 [] fs fh (G (S a)) (Ge (S a)) q h1 W1 (Nat.le_refl _)) as C.
  pose proof (gentle_loop _ (S a) k 0 fh (Ge (S a)) h1 W1 (Nat.le_refl _)) as C2. cbn zeta in C2.
  destruct (m_loop k 0 [] fs q h1) as [[o q' | made | ] h2]; [ | | exact C ].
  - destruct C as (C & Cq). rewrite C in C2 |- *. cbn [snd] in C2. destruct o as [l | | u | | | ]; try (now split).
    destruct (h_put PArray (Some a) (Cells l) h2) as [[] h3]; now split.
  - destruct C as (N & W2 & L2 & K2 & S2).
    assert (E : lookup a (h_live h2) = Some (mkB Many (Cells (repeat None k)))) by (apply K2; [ lia | cbn; now rewrite Nat.eqb_refl ]).
    pose proof (gentle_put n PArray a (Cells made) L h2 W2) as P. unfold h_put in P |- *. rewrite E in P |- *. cbn [snd b_alloc] in P.
    set (h3 := mkHeap (h_next h2) ((a, mkB Many (Cells made)) :: remove a (h_live h2))) in *. change (S a <= h_next h2) in L2. assert (La : n <= h_next h2) by (unfold a in L2; lia). destruct (P La) as (W3 & L3 & K3 & S3).
    split; [ exact N | ]. split; [ exact W3 | ]. split; [ apply (Nat.le_trans _ (h_next h2)); [ unfold a in L2; lia | exact L3 ] | ].
    split; [ apply (keep_trans n _ h2); [ | exact K3 ]; apply (keep_trans n _ h1); [ exact K1 | ];
             apply (keep_le n (S a)); [ unfold a in *; lia | exact K2 ] | ].
    destruct (h_loop k 0 fh h1) as [o h4] eqn:El. cbn [snd] in S2, C2. destruct C2 as (W4 & L4 & _ & _). change (S a <= h_next h4) in L4.
    assert (S4 : shrink n h3 h4).
    { apply (keep_trans n _ h2); [ | exact K3 ]. apply (keep_le n (S a)); [ unfold a in *; lia | exact S2 ]. }
    destruct o as [l | | u | | | ]; try exact S4.
    destruct (gentle_put n PArray a (Cells l) L h4 W4) as (_ & _ & _ & S5); [ unfold a in *; lia | ].
    unfold h_put in S5. fold a. destruct (lookup a (h_live h4)) as [b4 | ]; cbn [snd hret] in *; now apply (keep_trans n _ h4).
Qed.

Lemma gcut_arr_build : forall A n (ms : A -> Mem unit ptr) mh a, (forall n x, gcut n (ms x) (mh x)) -> (forall n x, gentle n (mh x)) ->
  gcut n (m_arr_build ms a) (arr_build mh a).
Proof.
  intros A n ms mh [k | l] G Ge; cbn; [ apply gcut_ret | ]. apply gcut_during, gcut_new_cells.
  - intros m i. destruct (nth_error l i); [ apply G | apply gcut_lift ].
  - intros m i. destruct (nth_error l i); [ apply Ge | apply gentle_undef ].
Qed.
Lemma gcut_text_build : forall n c, gcut n (m_text_build c) (text_build c).
Proof. intros. unfold m_text_build, text_build. cuts. Qed.
Lemma gcut_clone_addrs : forall n a k, gcut n (m_clone_addrs a k) (clone_addrs a k).
Proof.
  intros n a [ | k]; [ apply gcut_ret | ]. apply gcut_new_cells; intros m i; [ | gentles ]. cuts. apply gcut_new_addr; auto with scarce.
Qed.
Lemma gcut_clone_atts : forall n a k, gcut n (m_clone_atts a k) (clone_atts a k).
Proof.
  intros n a [ | k]; [ apply gcut_ret | ]. apply gcut_new_cells; intros m i; [ | gentles ]. cuts. apply gcut_new_att; auto with scarce.
Qed.
#[global] Hint Resolve gcut_text_build gcut_clone_addrs gcut_clone_atts : scarce.

(** ** Messages: the sender is destroyed when the rest fails *)

Lemma addr_copy_fresh : forall o h f h1, wfh h -> addr_copy o h = (Done f, h1) -> exists a b, f = mkAO (Some a) (Some b) /\
  h_next h <= a /\ a < b /\ b < h_next h1 /\
  (exists s, lookup a (h_live h1) = Some (mkB Many (Text s))) /\ (exists s, lookup b (h_live h1) = Some (mkB Many (Text s))).
Proof.
  intros o h f h1 W E. unfold addr_copy, hbind in E.
  pose proof (fun q p h => gentle_text 0 q p h) as Gt.
  destruct (h_text PArg (ao_email o) h) as [[e | | u | | | ] h2] eqn:E1; try discriminate.
  assert (h2 = h) as ->.
  { unfold h_text, h_get, hbind in E1. destruct (ao_email o) as [x | ]; [ | discriminate ]. destruct (lookup x (h_live h)); [ | discriminate ].
    destruct (b_content b); cbn in E1; now inversion E1. }
  unfold h_dup in E. change (h_new Many (Text e) h) with (@Done ptr (Some (h_next h)), mkHeap (S (h_next h)) ((h_next h, mkB Many (Text e)) :: h_live h)) in E.
  set (h3 := mkHeap _ _) in E. cbn beta iota in E. destruct (h_text PArg (ao_name o) h3) as [[m | | u | | | ] h4] eqn:E2; try discriminate.
  assert (h4 = h3) as ->.
  { unfold h_text, h_get, hbind in E2. destruct (ao_name o) as [x | ]; [ | discriminate ]. destruct (lookup x (h_live h3)); [ | discriminate ].
    destruct (b_content b); cbn in E2; now inversion E2. }
  unfold h_new, hret in E. cbn beta iota in E. injection E as <- <-. exists (h_next h), (h_next h3). split; [ reflexivity | ].
  cbn [h_next h_live lookup]. unfold h3. cbn [h_next h_live lookup]. rewrite !Nat.eqb_refl. split; [ lia | ]. split; [ lia | ]. split; [ lia | ].
  split; [ | now exists m ]. exists e. destruct (Nat.eqb_spec (h_next h) (S (h_next h))); [ lia | reflexivity ].
Qed.

Lemma addr_destroyed : forall n a b s t h, wfh h -> n <= h_next h -> n <= a -> n <= b -> a <> b ->
  lookup a (h_live h) = Some (mkB Many (Text s)) -> lookup b (h_live h) = Some (mkB Many (Text t)) ->
  exists h', addr_destroy (mkAO (Some a) (Some b)) h = (Done tt, h') /\
    wfh h' /\ h_next h <= h_next h' /\ keep n h h' /\ shrink n h h'.
Proof.
  intros n a b s t h W L La Lb N Ea Eb.
  assert (G : gentle n (addr_destroy (mkAO (Some a) (Some b)))).
  { unfold addr_destroy. cbn. apply gentle_bind; [ now apply gentle_del | intros _; now apply gentle_del ]. }
  specialize (G h W L). unfold addr_destroy, hbind, h_del in *. cbn [ao_email ao_name] in *. rewrite Ea in *. cbn [b_alloc h_live] in *.
  rewrite lookup_remove in * by congruence. rewrite Eb in *. cbn [b_alloc] in *. eexists. split; [ reflexivity | exact G ].
Qed.

Lemma gcut_with_sender : forall A n o (ks : addr_obj -> Mem unit A) kh, (forall n f, gcut n (ks f) (kh f)) -> (forall n f, gentle n (kh f)) ->
  gcut n (f <+ m_addr_copy o ;; unwinding (fun _ => addr_destroy f) (fun _ => tt) (ks f)) (f <~ addr_copy o ;; kh f).
Proof.
  intros A n o ks kh G Ge q h W L. pose proof (gcut_addr_copy n o q h W L) as C. pose proof (gentle_addr_copy n o h W L) as C2. cbn zeta in C2.
  unfold mbind, hbind. destruct (m_addr_copy o q h) as [[r q' | t | ] h1]; [ | | exact C ].
  - destruct C as (C & Cq). rewrite C in C2 |- *. cbn [snd] in C2. destruct r as [f | | u | | | ]; try (now split).
    destruct C2 as (W1 & L1 & K1 & _).
    destruct (addr_copy_fresh o h f h1 W C) as (a & b & -> & La & Lab & Lb & (s & Ea) & (t & Eb)).
    unfold unwinding. pose proof (G (h_next h1) (mkAO (Some a) (Some b)) q' h1 W1 (Nat.le_refl _)) as C3.
    destruct (ks (mkAO (Some a) (Some b)) q' h1) as [[r q2 | x | ] h2]; [ | | exact C3 ].
    + destruct C3 as (C3 & Cq3). split; [ exact C3 | ]. intros e. now apply Cq3, Cq.
    + destruct C3 as (N & W2 & L2 & K2 & S2).
      destruct (addr_destroyed n a b s t h2) as (h3 & D & W3 & L3 & K3 & S3); try lia; try assumption; try (now apply K2; [ lia | ]).
      rewrite D. split; [ intros e; now apply N, Cq | ]. split; [ exact W3 | ]. split; [ lia | ].
      split; [ apply (keep_trans n _ h2); [ | exact K3 ]; apply (keep_trans n _ h1); [ exact K1 | ]; apply (keep_le n (h_next h1)); [ lia | exact K2 ] | ].
      apply (keep_trans n _ h2); [ | exact K3 ]. apply (keep_le n (h_next h1)); [ lia | exact S2 ].
  - destruct C as (N & W1 & L1 & K1 & S1). split; [ exact N | ]. split; [ exact W1 | ]. split; [ exact L1 | ]. split; [ exact K1 | ].
    destruct (addr_copy o h) as [[f | | u | | | ] h2]; try exact S1. cbn [snd] in S1, C2. destruct C2 as (W2 & L2 & _ & _).
    destruct (Ge n f h2 W2) as (_ & _ & _ & S3); [ lia | ]. now apply (keep_trans n _ h2).
Qed.

Lemma gentle_arr_addrs : forall n a, gentle n (arr_build (fun o => new_addr (addr_copy o)) a).
Proof. intros. apply gentle_arr_build. gentles. Qed.
Lemma gentle_arr_atts : forall n a, gentle n (arr_build (fun o => new_att (att_copy o)) a).
Proof. intros. apply gentle_arr_build. gentles. Qed.
Lemma gcut_arr_addrs : forall n a, gcut n (m_arr_build (fun o => m_new_addr (m_addr_copy o)) a) (arr_build (fun o => new_addr (addr_copy o)) a).
Proof. intros. apply gcut_arr_build; [ | gentles ]. intros. apply gcut_new_addr; auto with scarce. Qed.
Lemma gcut_arr_atts : forall n a, gcut n (m_arr_build (fun o => m_new_att (m_att_copy o)) a) (arr_build (fun o => new_att (att_copy o)) a).
Proof. intros. apply gcut_arr_build; [ | gentles ]. intros. apply gcut_new_att; auto with scarce. Qed.
#[global] Hint Resolve gentle_arr_addrs gentle_arr_atts gcut_arr_addrs gcut_arr_atts : scarce.

Lemma gcut_msg_new : forall n f t c d s b a, gcut n (m_msg_new f t c d s b a) (msg_new f t c d s b a).
Proof. intros. unfold m_msg_new, msg_new. apply gcut_with_sender; [ cuts | gentles ]. Qed.
Lemma gcut_msg_copy : forall n o, gcut n (m_msg_copy o) (msg_copy o).
Proof. intros. unfold m_msg_copy, msg_copy. apply gcut_with_sender; [ cuts | gentles ]. Qed.

(** ** Clients *)

Lemma gcut_base_new : forall n s, gcut n (m_base_new s) (base_new s).
Proof. intros. unfold m_base_new, base_new. cuts. Qed.
Lemma gcut_dup_or_null : forall T n (t : T) p, gcut n (m_dup_or_null t p) (dup_or_null p).
Proof. intros T n t [a | ]; cbn; cuts. Qed.
Lemma gcut_auth_or_null : forall T n (t : T) p, gcut n (m_auth_or_null t p) (auth_or_null p).
Proof. intros T n t [a | ]; cbn; cuts. Qed.
Lemma gcut_cred_or_null : forall n p, gcut n (m_cred_or_null p) (cred_or_null p).
Proof. intros n [a | ]; cbn; cuts. apply gcut_new_cred; auto with scarce. Qed.
#[global] Hint Resolve gcut_dup_or_null gcut_auth_or_null gcut_cred_or_null gcut_base_new : scarce.
Lemma gcut_base_copy : forall n o, gcut n (m_base_copy o) (base_copy o).
Proof. intros. unfold m_base_copy, base_copy. cuts. Qed.
Lemma gcut_cpp_new : forall n s, gcut n (m_cpp_new s) (cpp_new s).
Proof. intros. apply gcut_map, gcut_base_new. Qed.
Lemma gcut_cpp_copy : forall n o, gcut n (m_cpp_copy o) (cpp_copy o).
Proof. intros. apply gcut_map, gcut_base_copy. Qed.
Lemma gcut_parse : forall n l, gcut n (m_parse_auth l) (parse_auth l).
Proof. intros. unfold m_parse_auth, parse_auth. cuts. Qed.
#[global] Hint Resolve gcut_parse gcut_base_copy gcut_msg_new gcut_msg_copy : scarce.
Lemma gcut_auth_loop : forall n f t r, gcut n (m_auth_loop f t r) (auth_loop f t r).
Proof. intros n f. induction f as [ | f IH]; intros t r; cbn; cuts. Qed.
#[global] Hint Resolve gcut_auth_loop : scarce.
