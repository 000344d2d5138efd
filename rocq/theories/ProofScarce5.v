(** Running out of memory, concluded: what is left of the objects. *)

From Coq Require Import Ascii String List NArith ZArith Bool Arith Lia Permutation.
From Verif Require Import Base ModelUtil ModelBase64 ModelAddress ModelAttachment ModelMessage ModelReply ModelHeap ModelScarce
  SpecHeap SpecScarce ProofText ProofHeap ProofHeap3 ProofHeap5 ProofHeap6 ProofHeap7 ProofHeap8 ProofHeap9
  ProofScarce ProofScarce2 ProofScarce3 ProofScarce4.
Import ListNotations.
Open Scope nat_scope.

Lemma perm_incl : forall (Y l : foot), NoDup (map fst Y) -> incl Y l -> exists X, Permutation l (Y ++ X).
Proof.
  induction Y as [ | z Y IH]; intros l N I; [ now exists l | ].
  assert (Iz : In z l) by (apply I; now left). apply in_split in Iz as (A & C & ->). inversion N; subst.
  destruct (IH (A ++ C)) as (X & P); [ assumption | | ].
  - intros y Iy. assert (In y (A ++ z :: C)) as J by (apply I; now right). apply in_app_or in J as [J | [J | J]].
    + apply in_or_app. now left.
    + subst y. exfalso. apply H1. now apply in_map.
    + apply in_or_app. now right.
  - exists X. cbn. now rewrite <- Permutation_middle, P.
Qed.

Lemma some_blocks : forall h Y, wfh h -> NoDup (map fst Y) -> (forall a b, In (a, b) Y -> lookup a (h_live h) = Some b) ->
  exists X, Sat h (Y ++ X).
Proof.
  intros h Y (N & F) Ny E. destruct (perm_incl Y (h_live h) Ny) as (X & P).
  - intros [a b] I. apply lookup_In. now apply E.
  - exists X. split; [ exact P | ]. split.
    + eapply Permutation_NoDup; [ apply Permutation_map; exact P | exact N ].
    + eapply Permutation_Forall; [ exact P | exact F ].
Qed.

Lemma sat_wfh : forall h F, Sat h F -> wfh h.
Proof.
  intros h F S. split; [ now apply (Sat_nodup_live _ F) | ]. destruct S as (P & _ & L). eapply Permutation_Forall; [ symmetry; exact P | exact L ].
Qed.

(** The blocks of [F] are where they were. *)
Lemma sat_keep : forall h h' F R, Sat h (F ++ R) -> wfh h' ->
  (forall a b, In (a, b) F -> lookup a (h_live h) = Some b -> lookup a (h_live h') = Some b) -> exists X, Sat h' (F ++ X).
Proof.
  intros h h' F R S W K. pose proof (Sat_nodup_live _ _ S) as Nl. destruct S as (P & N & _). apply some_blocks; [ exact W | | ].
  - rewrite map_app in N. clear - N. induction (map fst F) as [ | x r IH]; [ constructor | ]. cbn in N. inversion N; subst.
    constructor; [ intros I; apply H1, in_or_app; now left | now apply IH ].
  - intros a b I. apply (K a b I). apply lookup_in; [ exact Nl | ]. eapply Permutation_in; [ symmetry; exact P | ]. apply in_or_app. now left.
Qed.

Lemma keep_in_order : forall ps h h' K L, in_order ps h K L -> wfh h' -> keep (h_next h) h h' -> exists L', in_order ps h' K L'.
Proof.
  intros ps h h' K L (Gd & S) W Kp. destruct (sat_keep h h' (F0 ps K) L S W) as (X & S').
  - intros a b I. apply Kp. destruct S as (_ & _ & F). apply (proj1 (Forall_forall _ _) F (a, b)). apply in_or_app. now left.
  - exists X. now split.
Qed.

(** ** Any operation, compared with the one with enough memory *)

Lemma low_ftext : forall n p v X, ctext p v -> Forall (fun x => fst x < n) (ftext p v ++ X) -> low n p.
Proof.
  intros n [a | ] v X C F; [ | exact Logic.I ]. destruct v as [s | ]; [ | easy ]. cbn in F. now inversion F.
Qed.

Lemma order_low : forall ps h K L i x, in_order ps h K L -> get i (map fst ps) = OCpp x -> low_cred (h_next h) (bo_cred (po_base x)) h.
Proof.
  intros ps h K L i x (Gd & S) G.
  assert (E : exists g, nth_error ps i = Some (OCpp x, g)).
  { destruct (nth_error ps i) as [[o g] | ] eqn:E; [ rewrite (nth_get _ _ _ _ E) in G; subst; now exists g | ].
    unfold get in G. rewrite nth_overflow in G; [ discriminate | ]. rewrite map_length. now apply nth_error_None. }
  destruct E as (g & E). apply nth_error_In in E. pose proof (good_in _ _ _ Gd E) as C. destruct g as [ | | | | g | ]; cbn in C; try easy.
  destruct (fpool_in _ _ E) as (X & PX). destruct C as [_ _ _ Cc]. unfold low_cred.
  destruct (bo_cred (po_base x)) as [c | ] eqn:Ec; [ | exact Logic.I ]. destruct (gb_cred g) as [[o v] | ] eqn:Eg; cbn in Cc; [ | easy ].
  assert (S' : exists R, Sat h ((c, mkB One (CredObj o)) :: fcred o v ++ R)).
  { eexists. eapply Sat_perm; [ | exact S ]. unfold F0. rewrite PX. cbn [fobj]. unfold fbase. rewrite Ec, Eg. cbn [fcp].
    instantiate (1 := ftext (bo_server (po_base x)) (gb_server g) ++ ftext (bo_log (po_base x)) (gb_log g) ++
       ftext (bo_resp (po_base x)) (gb_resp g) ++ fauth (bo_auth (po_base x)) ++ X ++ fstore K ++ L). perm. }
  destruct S' as (R & S'). pose proof (Sat_lookup _ _ _ _ S') as El. destruct S' as (_ & _ & F). inversion F as [ | y z Fc Fr]; subst. cbn in Fc.
  split; [ exact Fc | ]. exists One, o. split; [ exact El | ]. unfold fcred in Fr. rewrite <- app_assoc in Fr. destruct Cc as (Cu & Cp & _).
  split; [ now apply (low_ftext _ _ _ _ Cu Fr) | ]. apply Forall_app in Fr as (_ & Fr). now apply (low_ftext _ _ _ _ Cp Fr).
Qed.

Lemma cred_source_gentle : forall n p c src, cred_source p c = Some src -> gentle n src.
Proof.
  intros n p [i | i] src E; cbn in E; destruct (get i p); try discriminate; injection E as <-; auto with scarce.
Qed.

Lemma rcut1_gcut : forall T A (ms : Mem T A) mh h, gcut (h_next h) ms mh -> wfh h -> rcut1 (h_next h) ms mh h.
Proof. intros. apply rcut_at; [ now apply gcut_rcut | assumption | reflexivity ]. Qed.

Lemma step_rcut : forall ps h K L o, in_order ps h K L -> rcut1 (h_next h) (m_step (map fst ps) o) (hstep (map fst ps) o) h.
Proof.
  intros ps h K L o Io. pose proof (sat_wfh _ _ (proj2 Io)) as W. set (p := map fst ps) in *.
  assert (Firm : firm p o -> rcut1 (h_next h) (m_step p o) (hstep p o) h) by (intros F; now apply rcut1_gcut; [ apply step_gcut | ]).
  assert (Ret : rcut1 (h_next h) (@mret pool pool p) (hret p) h) by (apply rcut_at; [ apply rcut_ret | exact W | reflexivity ]).
  assert (Put : forall A i (c : A -> obj) ms mh, rcut (h_next h) ms mh -> rcut1 (h_next h) (m_put p i c ms) (put1 p i (wrap c mh)) h).
  { intros A i c ms mh R. apply rcut1_put. now apply rcut_at; [ | | reflexivity ]. }
  destruct o; try (apply Firm; exact Logic.I).
  - clear Firm. cbn [m_step hstep]. destruct (Nat.eqb i j); [ exact Ret | ].
    destruct (get i p), (get j p); try exact Ret; apply Put; auto with scarce.
  - cbn [firm] in Firm. destruct (get i p) eqn:Gi; try (now apply Firm). destruct (get j p) eqn:Gj; try (now apply Firm). clear Firm.
    cbn [m_step hstep]. rewrite Gi, Gj. destruct (Nat.eqb i j); [ exact Ret | ].
    intros q. pose proof (rcut_msg_move_assign pool (h_next h) o o0 q h W (Nat.le_refl _)) as R. unfold mbind, put2, wrap2, hbind, mret, hret.
    destruct (m_msg_move_assign o o0 q h) as [[r q' | t | ] h1]; [ | | exact R ].
    + destruct R as (-> & R). destruct r as [[x y] | | | | | ]; now split.
    + destruct R as (N & W1 & L1 & S1). split; [ exact N | ]. split; [ exact W1 | ]. split; [ exact L1 | ].
      now destruct (msg_move_assign o o0 h) as [[[x y] | | | | | ] h2].
  - clear Firm. cbn [m_step hstep]. destruct (get i p); try exact Ret; apply Put; auto with scarce.
  - clear Firm. cbn [m_step hstep]. destruct (get i p); try exact Ret; apply Put; auto with scarce.
  - clear Firm. cbn [m_step hstep]. destruct (get i p); try exact Ret; apply Put; [ auto with scarce | ]. apply rcut_map, rcut_during. auto with scarce.
  - clear Firm. cbn [m_step hstep]. destruct (get i p) eqn:Gi; try exact Ret; destruct (cred_source p c) as [src | ] eqn:Es; try exact Ret;
      pose proof (cred_source_gentle (h_next h) _ _ _ Es) as Gs; [ apply Put; auto with scarce | ].
    apply rcut1_put. apply rcut1_setCredentials; [ exact W | reflexivity | exact (order_low _ _ _ _ _ _ Io Gi) | exact Gs ].
  - clear Firm. cbn [m_step hstep]. destruct (get i p); try exact Ret; apply Put; [ auto with scarce | ]. apply rcut_map, rcut_during. auto with scarce.
Qed.

Lemma get_set_other : forall p i x k, k <> i -> get k (set i x p) = get k p.
Proof.
  unfold get. induction p as [ | y r IH]; intros i x k N; [ now destruct i, k | ]. destruct i as [ | i], k as [ | k]; cbn; try reflexivity; try easy. apply IH. lia.
Qed.

(** Code that never throws std::bad_alloc. *)
Definition solid {T A} (m : Mem T A) : Prop := forall q h t h', m q h <> (NoMemory t, h').
Lemma solid_bind : forall T A C (m : Mem T A) (k : A -> Mem T C), solid m -> (forall a, solid (k a)) -> solid (mbind m k).
Proof.
  intros T A C m k G K q h t h'. unfold mbind. specialize (G q h). destruct (m q h) as [[[] ? | x | ] h1]; try discriminate; [ apply K | ].
  now destruct (G x h1).
Qed.
Lemma solid_lift : forall T A (m : H A), @solid T A (lift m).
Proof. intros T A m q h t h'. unfold lift. now destruct (m h). Qed.
Lemma solid_no_throw : forall T T' A (m : Mem T A), @solid T' A (no_throw m).
Proof. intros T T' A m q h t h'. unfold no_throw. now destruct (m q h) as [[] ?]. Qed.
Lemma solid_move : forall T a b, @solid T _ (m_msg_move_assign a b).
Proof.
  intros T a b. unfold m_msg_move_assign.
  repeat first [ apply solid_lift | apply solid_no_throw | apply solid_bind; [ | intros ? ] ]. now intros q h t h'.
Qed.

(** Where the objects that were not touched are. *)
Lemma untouched : forall p o q h p' h' k, m_step p o q h = (NoMemory p', h') -> ~ touches o k -> k < length p -> get k p' = get k p.
Proof.
  intros p o q h p' h' k E Nt Lk.
  assert (Put : forall A i (c : A -> obj) m, k <> i -> m_put p i c m q h = (NoMemory p', h') -> get k p' = get k p).
  { intros A i c m N X. unfold m_put, mbind, during, mret in X. destruct (m q h) as [[[] ? | t | ] h2]; try discriminate.
    inversion X; subst. now apply get_set_other. }
  assert (Ret : mret p q h = (@NoMemory pool pool p', h') -> get k p' = get k p) by discriminate.
  assert (Lift : forall m, @lift pool pool m q h = (NoMemory p', h') -> get k p' = get k p).
  { intros m X. unfold lift in X. now destruct (m h). }
  assert (Firm : firm p o -> get k p' = get k p).
  { intros F. destruct (firm_left _ _ _ _ _ _ F E) as [-> | ->]; [ reflexivity | ]. unfold get. now rewrite app_nth1. }
  destruct o; try (apply Firm; exact Logic.I); cbn [touches] in Nt.
  - clear Firm. cbn [m_step] in E. destruct (Nat.eqb i j); [ now apply Ret | ].
    destruct (get i p), (get j p); try (now apply Ret); eapply Put; eassumption.
  - cbn [m_step] in E. destruct (get i p) eqn:Gi; try (exact (Lift _ E)). destruct (get j p) eqn:Gj; try (exact (Lift _ E)).
    destruct (Nat.eqb i j); [ now apply Ret | ]. exfalso. revert E. apply solid_bind; [ apply solid_move | ]. intros [x y]. now intros q0 h0 t h2.
  - clear Firm. cbn [m_step] in E. destruct (get i p); try (now apply Ret); eapply Put; eassumption.
  - clear Firm. cbn [m_step] in E. destruct (get i p); try (now apply Ret); eapply Put; eassumption.
  - clear Firm. cbn [m_step] in E. destruct (get i p); try (now apply Ret); eapply Put; eassumption.
  - clear Firm. cbn [m_step] in E. destruct (get i p); try (now apply Ret); destruct (cred_source p c); try (now apply Ret); eapply Put; eassumption.
  - clear Firm. cbn [m_step] in E. destruct (get i p); try (now apply Ret); eapply Put; eassumption.
Qed.

(** ** Programs *)

Lemma m_run_app : forall l1 l2 p h, m_run (l1 ++ l2) p h =
  match m_run l1 p h with (Done p', h') => m_run l2 p' h' | (Throw, h') => (Throw, h') | (Undef u, h') => (Undef u, h')
  | (Blocked, h') => (Blocked, h') | (Killed, h') => (Killed, h') | (Diverge, h') => (Diverge, h') end.
Proof.
  induction l1 as [ | [o q] r IH]; intros l2 p h; [ now destruct (m_run l2 p h) as [[] ?] | ]. cbn [app m_run].
  destruct (m_step p o q h) as [[[] ? | | ] ?]; auto.
Qed.

Lemma along_scarce_snoc : forall C l x, along_scarce C (l ++ [x]) -> along_scarce C l.
Proof. intros C l x A l1 o q l2 p h E R. apply (A l1 o q (l2 ++ [x]) p h); [ | exact R ]. now rewrite E, <- app_assoc. Qed.

Definition orderly (p : pool) (h : heap) : Prop := exists ps K L, p = map fst ps /\ in_order ps h K L.

Lemma scarce_in_order : forall l, along_scarce prudent l ->
  match m_exec l with
  | (Done p, h) => orderly p h
  | (Undef u, _) => mem_error u = false
  | _ => False
  end.
Proof.
  intros l. induction l as [ | [o q] l IH] using rev_ind; intros Ca.
  - cbn. exists [], [], []. split; [ reflexivity | ]. split; [ exact good_nil | exact Sat_empty ].
  - specialize (IH (along_scarce_snoc _ _ _ Ca)). unfold m_exec in *. rewrite m_run_app.
    destruct (m_run l [] empty_heap) as [[p | | u | | | ] h] eqn:El; try exact IH.
    destruct IH as (ps & K & L & -> & Io). destruct (Ca l o q [] _ h eq_refl El) as (Co & Fo). cbn [m_run].
    pose proof (step_in_order ps h K L o Io Co) as T. pose proof (step_rcut ps h K L o Io q) as R.
    destruct (m_step (map fst ps) o q h) as [[r q' | p' | ] h'] eqn:Em.
    + destruct R as (R & _). rewrite R in T. destruct r as [p' | | u | | | ]; try exact T.
      * destruct T as (ps' & K' & L' & -> & Io' & _). exists ps', K', L'. now split.
      * destruct (is_ctor o).
        -- exists (ps ++ [(OGone, GGone)]), K, L. rewrite map_app. split; [ reflexivity | now apply gone_in_order ].
        -- exists ps, K, L. now split.
    + assert (F : firm (map fst ps) o) by (apply Fo; left; now exists p', h').
      pose proof (step_gcut (h_next h) _ _ F q h (sat_wfh _ _ (proj2 Io)) (Nat.le_refl _)) as G. rewrite Em in G.
      destruct G as (_ & W' & _ & Kp & _). destruct (keep_in_order _ _ _ _ _ Io W' Kp) as (L' & Io').
      destruct (firm_left _ _ _ _ _ _ F Em) as [-> | ->]; [ exists ps, K, L'; now split | ].
      exists (ps ++ [(OGone, GGone)]), K, L'. rewrite map_app. split; [ reflexivity | now apply gone_in_order ].
    + assert (F : firm (map fst ps) o) by (apply Fo; right; now exists h').
      pose proof (step_gcut (h_next h) _ _ F q h (sat_wfh _ _ (proj2 Io)) (Nat.le_refl _)) as G. rewrite Em in G. exact G.
Qed.

Lemma scarce_ends : forall l, along_scarce prudent l ->
  (exists p, fst (m_exec l) = Done p) \/ exists u, fst (m_exec l) = Undef u /\ mem_error u = false.
Proof.
  intros l Ca. pose proof (scarce_in_order l Ca) as T. destruct (m_exec l) as [[p | | u | | | ] h]; try easy; [ left; now exists p | ].
  right. now exists u.
Qed.

Lemma scarce_readable : forall l p h k, along_scarce prudent l -> m_exec l = (Done p, h) -> exists s, fst (observe (get k p) h) = Done s.
Proof.
  intros l p h k Ca E. pose proof (scarce_in_order l Ca) as T. rewrite E in T. destruct T as (ps & K & L & -> & Io).
  destruct (nth_error ps k) as [[o g] | ] eqn:Ek.
  - rewrite (nth_get _ _ _ _ Ek). destruct Io as (Gd & S). destruct (cred_seen_ex _ _ _ _ _ Gd Ek) as (w & W).
    eexists. eapply observed; [ split; eassumption | exact Ek | exact W ].
  - exists SGone. unfold get. rewrite nth_overflow; [ reflexivity | ]. rewrite map_length. now apply nth_error_None.
Qed.

(** The blocks an object shows something of. *)
Lemma shown_blocks : forall ps h K L k o g w, in_order ps h K L -> nth_error ps k = Some (o, g) -> cred_seen K o w ->
  exists K1 R, Permutation (F0 ps K ++ L) ((fobj (o, g) ++ fstore K1) ++ R) /\ cobj (o, g) /\ cstore K1 /\ cred_seen K1 o w /\
    (forall a x, In (a, x) K1 -> In (a, x) K /\ exists c, o = OCpp c /\ po_cred c = Some a).
Proof.
  intros ps h K L k o g w (Gd & S) E W. apply nth_error_In in E as I. destruct (fpool_in _ _ I) as (X & PX).
  pose proof (good_in _ _ _ Gd I) as C. unfold F0.
  assert (Simple : cred_seen [] o w -> exists K1 R, Permutation ((fpool ps ++ fstore K) ++ L) ((fobj (o, g) ++ fstore K1) ++ R) /\ cobj (o, g) /\
    cstore K1 /\ cred_seen K1 o w /\ (forall a x, In (a, x) K1 -> In (a, x) K /\ exists c, o = OCpp c /\ po_cred c = Some a)).
  { intros W0. exists [], (X ++ fstore K ++ L). split; [ rewrite PX; cbn [fstore flat_map]; rewrite app_nil_r; perm | ].
    split; [ exact C | ]. split; [ constructor | ]. split; [ exact W0 | easy ]. }
  destruct o as [ | | | | | c | ]; try (now apply Simple). cbn [cred_seen] in *. destruct (po_cred c) as [a | ] eqn:Ep; [ | now apply Simple ].
  destruct W as (xo & v & Ia & ->). destruct (store_in _ _ _ Ia) as (Y & PY). pose proof (store_ok _ _ _ _ (gd_store _ _ Gd) Ia) as Ca.
  exists [(a, (xo, v))], (X ++ Y ++ L). split; [ rewrite PX, PY; cbn [fstore flat_map fst snd]; rewrite app_nil_r; perm | ].
  split; [ exact C | ]. split; [ constructor; [ exact Ca | constructor ] | ].
  split; [ exists xo, v; split; [ now left | reflexivity ] | ]. intros a' x [Ex | []]. injection Ex as <- <-. split; [ exact Ia | ]. now exists c.
Qed.

Lemma shows_again : forall h F R o g w K1 S', Permutation F ((fobj (o, g) ++ fstore K1) ++ R) -> Sat h F -> cobj (o, g) -> cstore K1 ->
  cred_seen K1 o w -> S' = seen o g w -> forall h', wfh h' ->
  (forall a b, In (a, b) (fobj (o, g) ++ fstore K1) -> lookup a (h_live h) = Some b -> lookup a (h_live h') = Some b) ->
  fst (observe o h') = Done S'.
Proof.
  intros h F R o g w K1 S' P S C Ck W -> h' Wf Kp.
  destruct (sat_keep h h' (fobj (o, g) ++ fstore K1) R) as (X & SX); [ now apply (Sat_perm _ F) | exact Wf | exact Kp | ].
  eapply tri_result; [ apply (tri_observe never nothrow o g w K1 C Ck W) | exact SX ].
Qed.

Lemma strong_guarantee : forall l p h o q p' h' k, along_scarce prudent l -> m_exec l = (Done p, h) -> firm p o ->
  m_step p o q h = (NoMemory p', h') -> (p' = p \/ p' = p ++ [OGone]) /\
  exists s, fst (observe (get k p) h) = Done s /\ fst (observe (get k p) h') = Done s.
Proof.
  intros l p h o q p' h' k Ca E F Em. split; [ exact (firm_left _ _ _ _ _ _ F Em) | ].
  pose proof (scarce_in_order l Ca) as T. rewrite E in T. destruct T as (ps & K & L & -> & Io).
  pose proof (step_gcut (h_next h) _ _ F q h (sat_wfh _ _ (proj2 Io)) (Nat.le_refl _)) as G. rewrite Em in G. destruct G as (_ & W' & _ & Kp & _).
  destruct (keep_in_order _ _ _ _ _ Io W' Kp) as (L' & Io'). destruct (nth_error ps k) as [[x g] | ] eqn:Ek.
  - rewrite (nth_get _ _ _ _ Ek). destruct (cred_seen_ex _ _ _ _ _ (proj1 Io) Ek) as (w & W). exists (seen x g w).
    split; eapply observed; eassumption.
  - exists SGone. unfold get. rewrite nth_overflow; [ now split | ]. rewrite map_length. now apply nth_error_None.
Qed.

Lemma others_intact : forall l p h o q p' h' p1 h1 k, along_scarce prudent l -> m_exec l = (Done p, h) -> careful p o ->
  m_step p o None h = (Ended (Done p1) None, h1) -> m_step p o q h = (NoMemory p', h') -> ~ touches o k -> k < length p ->
  get k p' = get k p /\ exists s, fst (observe (get k p) h) = Done s /\ fst (observe (get k p') h') = Done s.
Proof.
  intros l p h o q p' h' p1 h1 k Ca E Co Ee Em Nt Lk. pose proof (untouched _ _ _ _ _ _ _ Em Nt Lk) as Gk. split; [ exact Gk | ]. rewrite Gk.
  pose proof (scarce_in_order l Ca) as T. rewrite E in T. destruct T as (ps & K & L & -> & Io).
  rewrite (plenty_step _ o h) in Ee. assert (Eh : hstep (map fst ps) o h = (Done p1, h1)).
  { destruct (hstep (map fst ps) o h) as [r hr]. cbn in Ee. now inversion Ee. }
  pose proof (step_in_order ps h K L o Io Co) as T. rewrite Eh in T. destruct T as (ps' & K' & L' & -> & Io' & _ & Kp & Kc).
  pose proof (step_rcut ps h K L o Io q) as R. rewrite Em, Eh in R. destruct R as (_ & W' & _ & Sh). cbn [snd] in Sh.
  destruct (nth_error ps k) as [[x g] | ] eqn:Ek.
  2:{ apply nth_error_None in Ek. rewrite map_length in Lk. lia. }
  pose proof (nth_get _ _ _ _ Ek) as Gx. rewrite Gx.
  destruct (cred_seen_ex _ _ _ _ _ (proj1 Io) Ek) as (w & W). exists (seen x g w). split; [ eapply observed; eassumption | ].
  destruct (shown_blocks _ _ _ _ _ _ _ _ Io Ek W) as (K1 & R & P & C & Ck & W1 & In1).
  eapply (shows_again h _ R x g w K1); try eassumption; try reflexivity; [ exact (proj2 Io) | ].
  intros a b Iab La. apply Sh.
  - apply lookup_In in La. pose proof (sat_wfh _ _ (proj2 Io)) as (_ & Fl). exact (proj1 (Forall_forall _ _) Fl _ La).
  - apply lookup_in; [ exact (Sat_nodup_live _ _ (proj2 Io')) | ]. eapply Permutation_in; [ symmetry; exact (proj1 (proj2 Io')) | ].
    unfold F0. rewrite <- app_assoc. apply in_app_or in Iab as [Iab | Iab].
    + apply in_or_app. left. apply in_flat_map. exists (x, g). split; [ | exact Iab ]. apply nth_error_In with k. now apply Kp.
    + apply in_or_app. right. apply in_or_app. left. apply in_flat_map in Iab as ([a1 g1] & I1 & Iab). apply in_flat_map. exists (a1, g1).
      split; [ | exact Iab ]. destruct (In1 _ _ I1) as (Ik & c & -> & Ep). exact (Kc k c a1 _ Nt Gx Ep Ik).
Qed.

