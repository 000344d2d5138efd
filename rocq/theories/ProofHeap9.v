(** Ownership: what follows for whole programs. *)

From Coq Require Import Ascii String List NArith ZArith Bool Arith Lia Permutation.
From Verif Require Import Base ModelUtil ModelBase64 ModelAddress ModelAttachment ModelMessage ModelHeap SpecHeap
  ProofText ProofHeap ProofHeap2 ProofHeap3 ProofHeap4 ProofHeap5 ProofHeap6 ProofHeap7 ProofHeap8.
Import ListNotations.
Open Scope nat_scope.

(** ** No memory error, no leak *)

Lemma run_safe : forall l, along careful l -> memory_safe (fst (hexec l)).
Proof.
  intros l Ca. pose proof (run_in_order l Ca) as T. destruct (hexec l) as [[p | | u | | | ] h]; try exact Logic.I. exact T.
Qed.

(** A careful program is never blocked and never loops: it ends, or stops at a
    null pointer or at a character isspace must not be given. *)
Lemma run_ends : forall l, along careful l ->
  (exists p, fst (hexec l) = Done p) \/ exists u, fst (hexec l) = Undef u /\ mem_error u = false.
Proof.
  intros l Ca. pose proof (run_in_order l Ca) as T. destruct (hexec l) as [[p | | u | | | ] h]; try easy; cbn.
  - left. now exists p.
  - right. now exists u.
Qed.

Lemma gone_empty : forall ps K, good ps K -> all_destroyed (map fst ps) -> fpool ps = [].
Proof.
  intros ps K [Ok _ _]. induction ps as [ | [o g] r IH]; intros A; [ reflexivity | ].
  pose proof (Forall_inv Ok) as C. pose proof (A 0) as E0'. cbn in E0'. subst o.
  cbn. destruct g; try easy. apply (IH (Forall_inv_tail Ok)). intros i. exact (A (S i)).
Qed.

Lemma Sat_nil : forall h, Sat h [] -> h_live h = [].
Proof. intros h (P & _). now apply Permutation_nil. Qed.

Lemma run_clean : forall l p h, along careful l -> along tidy_op l -> hexec l = (Done p, h) -> all_destroyed p ->
  h_live h = [].
Proof.
  intros l p h Ca Ti E A. pose proof (run_in_order l Ca) as T. rewrite E in T.
  destruct T as (ps & K & L & -> & (Gd & S) & X). destruct (X Ti) as (-> & ->).
  apply Sat_nil. unfold F0 in S. now rewrite (gone_empty _ _ Gd A) in S.
Qed.

(** ** Programs with value objects only *)

Definition value_obj (o : obj) : Prop := match o with OMsg _ | OBase _ | OCpp _ => False | _ => True end.
Definition message_obj (o : obj) : Prop := match o with OBase _ | OCpp _ => False | _ => True end.

Lemma get_in : forall (P : obj -> Prop) p i, P OGone -> Forall P p -> P (get i p).
Proof.
  intros P p i G Fp. unfold get. destruct (nth_in_or_default i p OGone) as [I | ->]; [ | exact G ].
  exact (proj1 (Forall_forall _ _) Fp _ I).
Qed.
Lemma set_all : forall (P : obj -> Prop) p i x, P x -> Forall P p -> Forall P (set i x p).
Proof.
  intros P p. induction p as [ | y r IH]; intros [ | i] x Px Fp; cbn; auto.
  - constructor; [ exact Px | exact (Forall_inv_tail Fp) ].
  - constructor; [ exact (Forall_inv Fp) | apply IH; [ exact Px | exact (Forall_inv_tail Fp) ] ].
Qed.

Lemma push_all : forall (P : obj -> Prop) A (c : A -> obj) p m h p' h', (forall a, P (c a)) -> Forall P p ->
  push p (wrap c m) h = (Done p', h') -> Forall P p'.
Proof.
  intros P A c p m h p' h' Pc Fp E. unfold push, wrap, hbind, hret in E. destruct (m h) as [[a | | | | | ] h1]; try easy.
  injection E as <- <-. apply Forall_app. split; [ exact Fp | now constructor ].
Qed.
Lemma put1_all : forall (P : obj -> Prop) A (c : A -> obj) p i m h p' h', (forall a, P (c a)) -> Forall P p ->
  put1 p i (wrap c m) h = (Done p', h') -> Forall P p'.
Proof.
  intros P A c p i m h p' h' Pc Fp E. unfold put1, wrap, hbind, hret in E. destruct (m h) as [[a | | | | | ] h1]; try easy.
  injection E as <- <-. now apply set_all.
Qed.
Lemma put1_gone : forall (P : obj -> Prop) p i (m : H unit) h p' h', P OGone -> Forall P p ->
  put1 p i (m ;;~ hret OGone) h = (Done p', h') -> Forall P p'.
Proof.
  intros P p i m h p' h' Pc Fp E. unfold put1, hbind, hret in E. destruct (m h) as [[a | | | | | ] h1]; try easy.
  injection E as <- <-. now apply set_all.
Qed.
Lemma put2_all : forall (P : obj -> Prop) A (c : A -> obj) p i j m h p' h', (forall a, P (c a)) -> Forall P p ->
  put2 p i j (wrap2 c m) h = (Done p', h') -> Forall P p'.
Proof.
  intros P A c p i j m h p' h' Pc Fp E. unfold put2, wrap2, hbind, hret in E. destruct (m h) as [[[a b] | | | | | ] h1]; try easy.
  injection E as <- <-. now apply set_all, set_all.
Qed.
Lemma pushput_all : forall (P : obj -> Prop) A (c : A -> obj) p i m h p' h', (forall a, P (c a)) -> Forall P p ->
  pushput p i (wrap2 c m) h = (Done p', h') -> Forall P p'.
Proof.
  intros P A c p i m h p' h' Pc Fp E. unfold pushput, wrap2, hbind, hret in E. destruct (m h) as [[[a b] | | | | | ] h1]; try easy.
  injection E as <- <-. apply Forall_app. split; [ now apply set_all | now constructor ].
Qed.
Lemma read_all : forall (P : obj -> Prop) A (m : H A) p h p' h', Forall P p ->
  (m ;;~ hret p) h = (Done p', h') -> Forall P p'.
Proof.
  intros P A m p h p' h' Fp E. unfold hbind, hret in E. destruct (m h) as [[a | | | | | ] h1]; try easy. now injection E as <- <-.
Qed.
Lemma ret_all : forall (P : obj -> Prop) (p p' : pool) h h', Forall P p -> hret p h = (Done p', h') -> Forall P p'.
Proof. intros P p p' h h' Fp [= <- <-]. exact Fp. Qed.

Ltac kinds Fp :=
  first [ eapply push_all; [ | exact Fp | eassumption ]; easy
        | eapply put1_gone; [ | exact Fp | eassumption ]; easy
        | eapply put1_all; [ | exact Fp | eassumption ]; easy
        | eapply put2_all; [ | exact Fp | eassumption ]; easy
        | eapply pushput_all; [ | exact Fp | eassumption ]; easy
        | eapply read_all; [ exact Fp | eassumption ]
        | eapply ret_all; [ exact Fp | eassumption ] ].

Lemma value_step : forall p o h p' h', Forall value_obj p -> value_op o -> hstep p o h = (Done p', h') -> Forall value_obj p'.
Proof.
  intros p o h p' h' Fp Vo E. destruct o; try easy; cbn [hstep] in E.
  all: try pose proof (get_in value_obj p i Logic.I Fp) as Vi.
  all: try pose proof (get_in value_obj p j Logic.I Fp) as Vj.
  all: repeat match type of E with context [match ?d with _ => _ end] =>
                lazymatch d with get _ _ => destruct d; try easy | Nat.eqb _ _ => destruct d end end.
  all: kinds Fp.
Qed.

Lemma message_step : forall p o h p' h', Forall message_obj p -> message_op o -> hstep p o h = (Done p', h') -> Forall message_obj p'.
Proof.
  intros p o h p' h' Fp Vo E. destruct o; try easy; cbn [hstep] in E.
  all: try pose proof (get_in message_obj p i Logic.I Fp) as Vi.
  all: try pose proof (get_in message_obj p j Logic.I Fp) as Vj.
  all: repeat match type of E with context [match ?d with _ => _ end] =>
                lazymatch d with get _ _ => destruct d; try easy | Nat.eqb _ _ => destruct d
                | addr_array _ _ => destruct d | att_array _ _ => destruct d end end.
  all: kinds Fp.
Qed.

Lemma kind_run : forall (P : obj -> Prop) (V : hop -> Prop), P OGone ->
  (forall p o h p' h', Forall P p -> V o -> hstep p o h = (Done p', h') -> Forall P p') ->
  forall l p h p' h', Forall P p -> Forall V l -> hrun l p h = (Done p', h') -> Forall P p'.
Proof.
  intros P V Pg St l. induction l as [ | o r IH]; intros p h p' h' Fp Fv E; cbn in E.
  - now injection E as <- <-.
  - destruct (hstep p o h) as [[p1 | | | | | ] h1] eqn:Eo; try easy.
    + apply (IH _ _ _ _ (St _ _ _ _ _ Fp (Forall_inv Fv) Eo) (Forall_inv_tail Fv) E).
    + refine (IH _ _ _ _ _ (Forall_inv_tail Fv) E). destruct (is_ctor o); [ | exact Fp ].
      apply Forall_app. split; [ exact Fp | now constructor ].
Qed.

(** In a program with value objects only, the conditions can be read off the
    text of the program. *)
Lemma value_careful : forall l, Forall value_op l -> Forall no_alias l -> along careful l.
Proof.
  intros l Fv Fa l1 o l2 p h El E. subst l. apply Forall_app in Fv as (Fv1 & Fv2). apply Forall_app in Fa as (_ & Fa2).
  pose proof (kind_run value_obj value_op Logic.I value_step l1 [] empty_heap p h (Forall_nil _) Fv1 E) as Fp.
  pose proof (Forall_inv Fv2) as Vo. pose proof (Forall_inv Fa2) as Na. destruct o; try exact Logic.I; try easy; cbn [careful].
  pose proof (get_in value_obj p i Logic.I Fp) as Vi. destruct (get i p); try easy.
Qed.

Lemma value_tidy : forall l, Forall value_op l -> (forall i c, ~ In (VSetContentId i c) l) -> along tidy_op l.
Proof.
  intros l Fv Nc l1 o l2 p h El E. subst l. apply Forall_app in Fv as (Fv1 & Fv2).
  pose proof (kind_run value_obj value_op Logic.I value_step l1 [] empty_heap p h (Forall_nil _) Fv1 E) as Fp.
  pose proof (Forall_inv Fv2) as Vo. destruct o; try exact Logic.I; try easy; cbn [tidy_op].
  - pose proof (get_in value_obj p i Logic.I Fp) as Vi. destruct (get i p); try easy.
  - apply (Nc i c). apply in_or_app. right. now left.
Qed.

Lemma value_safe : forall l, Forall value_op l -> Forall no_alias l -> memory_safe (fst (hexec l)).
Proof. intros l Fv Fa. apply run_safe. now apply value_careful. Qed.

Lemma value_clean : forall l p h, Forall value_op l -> Forall no_alias l -> (forall i c, ~ In (VSetContentId i c) l) ->
  hexec l = (Done p, h) -> all_destroyed p -> h_live h = [].
Proof. intros l p h Fv Fa Nc. apply run_clean; [ now apply value_careful | now apply value_tidy ]. Qed.

(** ** What objects show *)

Definition seen (o : obj) (g : gobj) (w : option vcred) : obs :=
  match o, g with
  | OAddr _, GAddr v => SAddr v
  | OAtt _, GAtt v => SAtt v
  | OCred _, GCred v => SCred v
  | OMsg m, GMsg g => SMsg (mkView (g_from g) (view (g_to g)) (mo_nto m) (view (g_cc g)) (mo_ncc m)
          (view (g_bcc g)) (mo_nbcc m) (g_subject g) (g_body g) (view (g_atts g)) (mo_natts m))
  | OBase _, GBase g => SClient false (gb_server g) (gb_log g) (option_map snd (gb_cred g))
  | OCpp _, GBase g => SClient true (gb_server g) (gb_log g) w
  | _, _ => SGone
  end.

Definition cred_seen (K : store) (o : obj) (w : option vcred) : Prop :=
  match o with
  | OCpp c => match po_cred c with None => w = None | Some a => exists x v, In (a, (x, v)) K /\ w = Some v end
  | _ => True
  end.

Lemma tri_observe_cred : forall U E p g, ccp p g ->
  tri U E (fcp p g) (observe_cred p) (fun x G => x = option_map snd g /\ G = fcp p g).
Proof.
  intros U E [a | ] [[o v] | ] C; try easy.
  - unfold observe_cred. cbn [fcp]. eapply tri_seq; [ apply (get_cred_spec _ _ a o) | perm | ]. intros x G (-> & ->).
    eapply tri_seq; [ apply (tri_read_cred _ _ o v C) | perm | ]. intros x G (-> & ->).
    eapply tri_ret; [ | split; reflexivity ]. perm.
  - cbn. eapply tri_ret; [ perm | now split ].
Qed.

Lemma tri_observe : forall U E o g w K, cobj (o, g) -> cstore K -> cred_seen K o w ->
  tri U E (fobj (o, g) ++ fstore K) (observe o) (fun x G => x = seen o g w /\ G = fobj (o, g) ++ fstore K).
Proof.
  intros U E o g w K C Ck W.
  destruct o as [o | o | o | o | o | o | ], g as [v | v | v | g | g | ]; cbn in C; try easy; cbn [observe fobj seen].
  - eapply tri_seq; [ apply (tri_read_addr U _ o v C) | perm | ]. intros x G (-> & ->). eapply tri_ret; [ apply Permutation_refl | now split ].
  - eapply tri_seq; [ apply (tri_read_att U _ o v C) | perm | ]. intros x G (-> & ->). eapply tri_ret; [ apply Permutation_refl | now split ].
  - eapply tri_seq; [ apply (tri_read_cred U _ o v C) | perm | ]. intros x G (-> & ->). eapply tri_ret; [ apply Permutation_refl | now split ].
  - eapply tri_seq; [ apply (tri_read_msg U _ o g C) | perm | ]. intros x G (-> & ->). eapply tri_ret; [ apply Permutation_refl | now split ].
  - destruct C. unfold fbase.
    eapply tri_seq; [ eapply tri_peek; exact cb_server | perm | ]. intros x G (-> & ->).
    eapply tri_seq; [ eapply tri_peek; exact cb_log | perm | ]. intros x G (-> & ->).
    eapply tri_seq; [ apply (tri_observe_cred _ _ _ _ cb_cred) | perm | ]. intros x G (-> & ->).
    eapply tri_ret; [ | split; reflexivity ]. perm.
  - destruct C. unfold fbase.
    eapply tri_seq; [ eapply tri_peek; exact cb_server | perm | ]. intros x G (-> & ->).
    eapply tri_seq; [ eapply tri_peek; exact cb_log | perm | ]. intros x G (-> & ->).
    cbn [cred_seen] in W. destruct (po_cred o) as [a | ].
    + destruct W as (xo & v & Ia & ->). destruct (store_in _ _ _ Ia) as (X & PX). pose proof (store_ok _ _ _ _ Ck Ia) as C.
      eapply tri_seq with (F := fcp (Some a) (Some (xo, v)))
          (X := X ++ ftext (bo_server (po_base o)) (gb_server g) ++ ftext (bo_log (po_base o)) (gb_log g) ++
                ftext (bo_resp (po_base o)) (gb_resp g) ++ fauth (bo_auth (po_base o)) ++ fcp (bo_cred (po_base o)) (gb_cred g));
        [ apply (tri_observe_cred _ _ (Some a) (Some (xo, v)) C) | rewrite PX; perm | ].
      intros x G (-> & ->). eapply tri_ret; [ | split; reflexivity ]. rewrite PX. perm.
    + subst w. cbn [observe_cred]. apply tri_ret_bind. eapply tri_ret; [ | split; reflexivity ]. perm.
  - eapply tri_ret; [ apply Permutation_refl | now split ].
Qed.

Lemma nth_get : forall (ps : list (obj * gobj)) k o g, nth_error ps k = Some (o, g) -> get k (map fst ps) = o.
Proof.
  intros ps k o g E. unfold get. apply nth_error_nth with (d := (OGone, GGone)) in E as En.
  rewrite nth_indep with (d' := fst (OGone, GGone)).
  - now rewrite map_nth, En.
  - rewrite map_length. apply nth_error_Some. congruence.
Qed.

Lemma observed : forall ps h K L k o g w, in_order ps h K L -> nth_error ps k = Some (o, g) -> cred_seen K o w ->
  fst (observe o h) = Done (seen o g w).
Proof.
  intros ps h K L k o g w (Gd & S) E W. apply nth_error_In in E as I.
  destruct (fpool_in _ _ I) as (X & PX).
  eapply tri_result; [ apply (tri_observe never nothrow o g w K (good_in _ _ _ Gd I) (gd_store _ _ Gd) W) | ].
  eapply Sat_perm; [ | exact S ]. unfold F0. rewrite PX. instantiate (1 := X ++ L). perm.
Qed.

Lemma cred_seen_ex : forall ps K k o g, good ps K -> nth_error ps k = Some (o, g) -> exists w, cred_seen K o w.
Proof.
  intros ps K k o g Gd E. pose proof (get_held ps K k Gd) as Hh. rewrite (nth_get _ _ _ _ E) in Hh.
  destruct o as [ | | | | | c | ]; try now exists None. cbn in *. destruct (po_cred c) as [a | ]; [ | now exists None ].
  destruct Hh as ([x v] & I). exists (Some v), x, v. now split.
Qed.

(** Every object of a careful program can be read. *)
Lemma readable : forall l p h k, along careful l -> hexec l = (Done p, h) ->
  exists s, fst (observe (get k p) h) = Done s.
Proof.
  intros l p h k Ca E. pose proof (run_in_order l Ca) as T. rewrite E in T.
  destruct T as (ps & K & L & -> & Io & _).
  destruct (nth_error ps k) as [[o g] | ] eqn:Ek.
  - rewrite (nth_get _ _ _ _ Ek). destruct Io as (Gd & S). destruct (cred_seen_ex _ _ _ _ _ Gd Ek) as (w & W).
    eexists. eapply observed; [ split; eassumption | exact Ek | exact W ].
  - exists SGone. unfold get. rewrite nth_overflow; [ reflexivity | ]. rewrite map_length. now apply nth_error_None.
Qed.

(** Operations leave the other objects alone. *)
Lemma independent : forall l p h o p' h' k, along careful l -> hexec l = (Done p, h) -> careful p o ->
  ~ touches o k -> k < length p ->
  hstep p o h = (Done p', h') \/ (hstep p o h = (Throw, h') /\ p' = p) ->
  get k p' = get k p /\ exists s, fst (observe (get k p) h) = Done s /\ fst (observe (get k p') h') = Done s.
Proof.
  intros l p h o p' h' k Ca E Co Nt Lk Eo. pose proof (run_in_order l Ca) as T. rewrite E in T.
  destruct T as (ps & K & L & -> & Io & _). pose proof (step_in_order ps h K L o Io Co) as T.
  assert (Lk' : k < length ps) by now rewrite map_length in Lk.
  destruct (nth_error ps k) as [[x g] | ] eqn:Ek.
  2:{ apply nth_error_None in Ek. lia. }
  destruct (cred_seen_ex _ _ _ _ _ (proj1 Io) Ek) as (w & W). pose proof (nth_get _ _ _ _ Ek) as Gk. rewrite Gk.
  pose proof (observed _ _ _ _ _ _ _ _ Io Ek W) as O1. destruct Eo as [Eo | (Eo & ->)]; rewrite Eo in T.
  - destruct T as (ps' & K' & L' & -> & Io' & _ & Kp & Kc). pose proof (Kp _ _ Nt Ek) as Ek'.
    rewrite (nth_get _ _ _ _ Ek'). split; [ reflexivity | ]. eexists. split; [ exact O1 | ].
    eapply observed; [ exact Io' | exact Ek' | ]. destruct x as [ | | | | | c | ]; try exact Logic.I. cbn in *.
    destruct (po_cred c) as [a | ] eqn:Ep; [ | exact W ]. destruct W as (xo & v & Ia & ->). exists xo, v. split; [ | reflexivity ].
    now apply (Kc k c a _ Nt Gk Ep).
  - rewrite Gk. split; [ reflexivity | ]. eexists. split; [ exact O1 | ]. eapply observed; [ exact T | exact Ek | exact W ].
Qed.
