(** Value semantics: what the objects of a careful program hold. *)

From Coq Require Import Ascii String List NArith ZArith Bool Arith Lia Permutation.
From Verif Require Import Base Lib ModelUtil ModelBase64 ModelAddress ModelAttachment ModelMessage ModelHeap SpecHeap SpecValues
  ProofText ProofHeap ProofHeap2 ProofHeap3 ProofHeap4 ProofHeap5 ProofHeap6 ProofHeap7 ProofHeap8 ProofHeap9 ProofHeap10.
Import ListNotations.
Open Scope nat_scope.

Definition shows (x : obj) (h : heap) (w : obs) : Prop := exists v, fst (observe x h) = Done v /\ contents v = w.

Lemma gone_shows : forall h, shows OGone h SGone.
Proof. intros h. now exists SGone. Qed.

Lemma holds_get : forall p h l k, holds p h l -> shows (get k p) h (value l k).
Proof.
  intros p h l k Hp. unfold get, value. revert k. induction Hp as [ | x s p l Hx Hp IH]; intros k.
  - destruct k; apply gone_shows.
  - destruct k; [ exact Hx | exact (IH k) ].
Qed.
Lemma holds_length : forall p h l, holds p h l -> length p = length l.
Proof. intros p h l Hp. induction Hp; cbn; auto. Qed.
Lemma holds_all : forall p h l, length p = length l -> (forall k, k < length p -> shows (get k p) h (value l k)) -> holds p h l.
Proof.
  intros p h. induction p as [ | x p IH]; intros [ | s l] El Hk; try easy; [ constructor | ].
  constructor; [ exact (Hk 0 ltac:(cbn; lia)) | ]. apply IH; [ now injection El | ].
  intros k Lk. exact (Hk (S k) ltac:(cbn; lia)).
Qed.
Lemma holds_push : forall p h l x w, holds p h l -> shows x h w -> holds (p ++ [x]) h (l ++ [w]).
Proof. intros p h l x w Hp Hx. apply Forall2_app; [ exact Hp | ]. constructor; [ exact Hx | constructor ]. Qed.
Lemma changed_length : forall l i v, length (changed l i v) = length l.
Proof. induction l as [ | x l IH]; intros [ | i] v; cbn; auto. Qed.
Lemma value_same : forall l i v, i < length l -> value (changed l i v) i = v.
Proof. induction l as [ | x l IH]; intros [ | i] v L; cbn in *; try lia; [ reflexivity | ]. apply (IH i v). lia. Qed.
Lemma value_other : forall l i j v, i <> j -> value (changed l j v) i = value l i.
Proof. induction l as [ | x l IH]; intros [ | i] [ | j] v N; cbn; try easy. apply (IH i j v). lia. Qed.
Lemma changed_over : forall l i v, length l <= i -> changed l i v = l.
Proof. induction l as [ | x l IH]; intros [ | i] v L; cbn in *; try lia; try easy. now rewrite IH by lia. Qed.

Lemma holds_set : forall p h l i x w, holds p h l -> shows x h w -> holds (set i x p) h (changed l i w).
Proof.
  intros p h l i x w Hp Hx. pose proof (holds_length _ _ _ Hp) as El.
  apply holds_all; [ now rewrite length_set, changed_length | ]. intros k Lk. rewrite length_set in Lk.
  destruct (Nat.eq_dec k i) as [-> | N].
  - rewrite get_set_same, value_same by lia. exact Hx.
  - rewrite get_set_other, value_other by exact N. now apply holds_get.
Qed.

(** ** Operations leave the other objects alone *)

Section ONE.
Context (l : list hop) (p : pool) (h : heap) (vs : values).
Context (Ca : along careful l) (El : hexec l = (Done p, h)) (Hp : holds p h vs).

Lemma other_kept : forall o p' h' k, careful p o -> hstep p o h = (Done p', h') -> ~ touches o k -> k < length p ->
  get k p' = get k p /\ shows (get k p) h' (value vs k).
Proof.
  intros o p' h' k Co Eo Nt Lk. destruct (independent l p h o p' h' k Ca El Co Nt Lk (or_introl Eo)) as (E & s & O1 & O2).
  split; [ exact E | ]. destruct (holds_get _ _ _ k Hp) as (v & Ov & Cv). rewrite O1 in Ov. injection Ov as <-.
  exists s. rewrite E in O2. now split.
Qed.

Lemma throw_kept : forall o h', careful p o -> hstep p o h = (Throw, h') -> holds p h' vs.
Proof.
  intros o h' Co Eo. apply holds_all; [ exact (holds_length _ _ _ Hp) | ]. intros k Lk.
  pose proof (run_in_order l Ca) as T. rewrite El in T. destruct T as (ps & K & L & -> & Io & _).
  pose proof (step_in_order ps h K L o Io Co) as T. rewrite Eo in T. rewrite map_length in Lk.
  destruct (nth_error ps k) as [[x g] | ] eqn:Ek.
  2:{ apply nth_error_None in Ek. lia. }
  destruct (cred_seen_ex _ _ _ _ _ (proj1 Io) Ek) as (w & W).
  destruct (holds_get _ _ _ k Hp) as (v & Ov & Cv). rewrite (nth_get _ _ _ _ Ek) in *.
  rewrite (observed _ _ _ _ _ _ _ _ Io Ek W) in Ov. injection Ov as <-.
  eexists. split; [ eapply observed; [ exact T | exact Ek | exact W ] | exact Cv ].
Qed.

Lemma push_kept : forall o p' h' x w, careful p o -> hstep p o h = (Done p', h') -> p' = p ++ [x] -> (forall k, ~ touches o k) ->
  shows x h' w -> holds p' h' (vs ++ [w]).
Proof.
  intros o p' h' x w Co Eo -> Nt Hx. apply holds_push; [ | exact Hx ].
  apply holds_all; [ exact (holds_length _ _ _ Hp) | ]. intros k Lk. exact (proj2 (other_kept _ _ _ k Co Eo (Nt k) Lk)).
Qed.

Lemma same_kept : forall o p' h', careful p o -> hstep p o h = (Done p', h') -> p' = p -> (forall k, ~ touches o k) -> holds p' h' vs.
Proof.
  intros o p' h' Co Eo -> Nt.
  apply holds_all; [ exact (holds_length _ _ _ Hp) | ]. intros k Lk. exact (proj2 (other_kept _ _ _ k Co Eo (Nt k) Lk)).
Qed.

Lemma put_kept : forall o p' h' i x w, careful p o -> hstep p o h = (Done p', h') -> p' = set i x p ->
  (forall k, touches o k -> k = i) -> shows x h' w -> holds p' h' (changed vs i w).
Proof.
  intros o p' h' i x w Co Eo -> Nt Hx. pose proof (holds_length _ _ _ Hp) as Len.
  apply holds_all; [ now rewrite length_set, changed_length | ]. intros k Lk. rewrite length_set in Lk.
  destruct (Nat.eq_dec k i) as [-> | N].
  - rewrite get_set_same, value_same by lia. exact Hx.
  - rewrite get_set_other, value_other by exact N.
    refine (proj2 (other_kept _ _ _ k Co Eo _ Lk)). intros t. now apply N, Nt.
Qed.

Lemma put2_kept : forall o p' h' i j x y w z, careful p o -> hstep p o h = (Done p', h') -> p' = set j y (set i x p) -> i <> j ->
  (forall k, touches o k -> k = i \/ k = j) -> shows x h' w -> shows y h' z -> holds p' h' (changed (changed vs i w) j z).
Proof.
  intros o p' h' i j x y w z Co Eo -> Nij Nt Hx Hy. pose proof (holds_length _ _ _ Hp) as Len.
  apply holds_all; [ now rewrite !length_set, !changed_length | ]. intros k Lk. rewrite !length_set in Lk.
  destruct (Nat.eq_dec k j) as [-> | Nj].
  { rewrite get_set_same, value_same by (rewrite ?length_set, ?changed_length; lia). exact Hy. }
  rewrite get_set_other, value_other by exact Nj. destruct (Nat.eq_dec k i) as [-> | N].
  - rewrite get_set_same, value_same by lia. exact Hx.
  - rewrite get_set_other, value_other by exact N.
    assert (Nk : ~ touches o k) by (intros t; destruct (Nt k t); contradiction).
    pose proof (other_kept _ _ _ k Co Eo Nk Lk) as (G & S). exact S.
Qed.

(** ** Text arguments *)

Lemma getter_field : forall o g w k, cobj (o, g) -> cin (CInside (getter o k)) (fobj (o, g)) (field (contents (seen o g w)) k).
Proof.
  intros o g w k C.
  assert (T : forall q v X, ctext q v -> Permutation (fobj (o, g)) (ftext q v ++ X) -> cin (CInside q) (fobj (o, g)) v).
  { intros q v X Cp P. eapply ctext_cin; eassumption. }
  destruct o as [o | o | o | o | o | o | ], g as [v | v | v | v | v | ]; cbn in C; try easy;
    destruct k as [ | [ | [ | [ | k]]]]; cbn [getter seen contents]; try (destruct v; reflexivity); try reflexivity.
  all: cbn [fobj] in T |- *; unfold faddr, fatt, fcred, fmsg, fbase, faddr in T |- *.
  all: lazymatch type of C with
       | caddr _ _ => destruct C as (C1 & C2)
       | catt _ _ => destruct C as (C1 & C2 & C3)
       | ccred _ _ => destruct C as (C1 & C2 & C3)
       | cmsg _ _ => destruct C as [(C1 & C2) ? ? ? ? ? ?]
       | cbase _ _ => destruct C
       end.
  all: try destruct v as [[v1 v2] v3]; try destruct v as [v1 v2]; cbn [field fst snd message_of w_subject w_body w_from] in *.
  all: first [ reflexivity | eapply T; [ eassumption | perm ] ].
Qed.

Lemma text_read : forall a, c_read (eval p a) h = (Done (text vs a), h).
Proof.
  assert (Kp : forall c F v X, cin c F v -> Sat h (F ++ X) -> c_read c h = (Done v, h)).
  { intros c F v X C S. pose proof (read_arg c F v h X C S) as E. destruct (c_read c h) as [r h'] eqn:Er. cbn in E. subst r. f_equal.
    destruct c as [ | s | [a | ]]; cbn in Er; try (now injection Er).
    unfold hbind, h_text, h_get, hret, hbind in Er.
    destruct (lookup a (h_live h)) as [[k []] | ]; cbn in Er; now injection Er. }
  intros [ | s | i k]; [ reflexivity | reflexivity | ]. cbn [eval text].
  destruct (Nat.lt_ge_cases i (length p)) as [Li | Li].
  - pose proof (run_in_order l Ca) as T. rewrite El in T. destruct T as (ps & K & L & Ep & Io & _).
    assert (Li' : i < length ps) by (rewrite Ep, map_length in Li; exact Li).
    destruct (nth_error ps i) as [[x g] | ] eqn:Ek; [ | apply nth_error_None in Ek; lia ].
    destruct (cred_seen_ex _ _ _ _ _ (proj1 Io) Ek) as (w & W).
    destruct (holds_get _ _ _ i Hp) as (v & Ov & Cv). rewrite Ep in Ov |- *. rewrite (nth_get _ _ _ _ Ek) in *.
    rewrite (observed _ _ _ _ _ _ _ _ Io Ek W) in Ov. injection Ov as <-. rewrite <- Cv.
    apply nth_error_In in Ek. destruct (fpool_in _ _ Ek) as (X & PX). destruct Io as (Gd & S).
    apply Kp with (F := fobj (x, g)) (X := X ++ fstore K ++ L); [ apply getter_field; exact (good_in _ _ _ Gd Ek) | ].
    eapply Sat_perm; [ | exact S ]. unfold F0. rewrite PX. perm.
  - unfold get. rewrite nth_overflow by exact Li. unfold value.
    rewrite nth_overflow by (rewrite <- (holds_length _ _ _ Hp); exact Li). now destruct k.
Qed.

(** ** Constructors *)

Definition outcome_ok (o : hop) : Prop :=
  match hstep p o h with
  | (Done p', h') => holds p' h' (after vs o)
  | (Throw, h') => holds (if is_ctor o then p ++ [OGone] else p) h' (after vs o)
  | _ => True
  end.

Lemma ctor_ok : forall o A (c : A -> obj) (m : H A) w, hstep p o = push p (wrap c m) -> is_ctor o = true -> careful p o ->
  (forall k, ~ touches o k) -> after vs o = vs ++ [w] ->
  (forall a h', m h = (Done a, h') -> shows (c a) h' w) -> (forall h', m h = (Throw, h') -> w = SGone) -> outcome_ok o.
Proof.
  intros o A c m w Eo Ic Co Nt Ew Hd Ht. unfold outcome_ok. rewrite Ic, Ew. destruct (hstep p o h) as [[p' | | u | | | ] h'] eqn:E; try exact Logic.I.
  - pose proof E as E'. rewrite Eo in E'. apply push_done in E' as (a & Ea & Ep). eapply push_kept; eauto.
  - rewrite Eo in E. unfold push, wrap, hbind, hret in E. destruct (m h) as [[a | | | | | ] h1] eqn:Em; try easy.
    rewrite (Ht _ eq_refl). apply holds_push; [ | apply gone_shows ]. apply (throw_kept o h' Co).
    rewrite Eo. unfold push, wrap, hbind, hret. rewrite Em. exact E.
Qed.

Lemma lookup_new : forall n b r, lookup n ((n, b) :: r) = Some b.
Proof. intros. cbn. now rewrite Nat.eqb_refl. Qed.
Lemma lookup_old : forall n m b r, n < m -> lookup n ((m, b) :: r) = lookup n r.
Proof. intros n m b r L. cbn. destruct (Nat.eqb_spec n m); [ lia | reflexivity ]. Qed.

Lemma shows_intro : forall x hp v w, fst (observe x hp) = Done v -> contents v = w -> shows x hp w.
Proof. intros x hp v w E Ew. now exists v. Qed.

Ltac read_all E := repeat (unfold hbind at 1 in E; rewrite text_read in E).
Ltac look := repeat (first [ rewrite lookup_old by lia | rewrite lookup_new ]; cbn -[lookup]).

Lemma VAddr_ok : forall e n, outcome_ok (VAddr e n).
Proof.
  intros e n. eapply ctor_ok; [ reflexivity | reflexivity | exact Logic.I | easy | reflexivity | | ].
  - intros a h' E. unfold addr_new in E. read_all E.
    unfold hbind, hlift in E. destruct (address_new (text vs e) (text vs n)) as [v | | | | | ]; try easy. cbn in E.
    injection E as <- <-. eapply shows_intro; [ | cbn [built]; unfold address_value; refine (eq_refl (contents (SAddr _))) ].
    unfold observe, read_addr, peek, h_text, h_get, hbind, hret. cbn [ao_email ao_name h_live]. look. reflexivity.
  - intros h' E. unfold addr_new in E. read_all E.
    unfold hbind, hlift in E. destruct (address_new (text vs e) (text vs n)) as [v | | | | | ]; easy.
Qed.

Lemma VAtt_ok : forall f n c, outcome_ok (VAtt f n c).
Proof.
  intros f n c. eapply ctor_ok; [ reflexivity | reflexivity | exact Logic.I | easy | reflexivity | | ].
  - intros a h' E. unfold att_new in E. read_all E.
    unfold hbind, hlift in E. destruct (attachment_new (text vs f) (text vs n) (text vs c)) as [v | | | | | ]; try easy. cbn in E.
    injection E as <- <-. eapply shows_intro; [ | cbn [built]; unfold attachment_value; refine (eq_refl (contents (SAtt _))) ].
    unfold observe, read_att, peek, h_text, h_get, hbind, hret. cbn [to_name to_file to_cid h_live]. look. reflexivity.
  - intros h' E. unfold att_new in E. read_all E.
    unfold hbind, hlift in E. destruct (attachment_new (text vs f) (text vs n) (text vs c)) as [v | | | | | ]; easy.
Qed.

Lemma VCred_ok : forall u w, outcome_ok (VCred u w).
Proof.
  intros u w. eapply ctor_ok; [ reflexivity | reflexivity | exact Logic.I | easy | reflexivity | | ].
  - intros a h' E. unfold cred_new in E. read_all E.
    unfold hbind, hlift in E. destruct (credential_new (text vs u) (text vs w)) as [v | | | | | ]; try easy. cbn in E.
    injection E as <- <-. eapply shows_intro; [ | cbn [built]; unfold credential_value; refine (eq_refl (contents (SCred _))) ].
    unfold observe, read_cred, peek, h_text, h_get, hbind, hret. cbn [co_user co_pass co_method h_live]. look. reflexivity.
  - intros h' E. unfold cred_new in E. read_all E.
    unfold hbind, hlift in E. destruct (credential_new (text vs u) (text vs w)) as [v | | | | | ]; easy.
Qed.

Lemma VCred3_ok : forall u w m, outcome_ok (VCred3 u w m).
Proof.
  assert (T : forall u w, cred_new (eval p u) (eval p w) h =
    (v <~ hlift (credential_new (text vs u) (text vs w)) ;; pu <~ h_dup (cr_user v) ;; pp <~ h_dup (cr_pass v) ;;
     hret (mkCO pu pp (cr_method v))) h).
  { intros u w. unfold cred_new. unfold hbind at 1. rewrite text_read. unfold hbind at 1. now rewrite text_read. }
  intros u w m. eapply ctor_ok; [ reflexivity | reflexivity | exact Logic.I | easy | reflexivity | | ].
  - intros a h' E. unfold cred_new3, credential_new3 in *. unfold hbind at 1 in E. rewrite T in E.
    unfold hbind, hlift in E. destruct (credential_new (text vs u) (text vs w)) as [v | | | | | ]; try easy. cbn in E.
    injection E as <- <-. eapply shows_intro; [ | cbn [built obind]; unfold credential_value; refine (eq_refl (contents (SCred _))) ].
    unfold observe, read_cred, peek, h_text, h_get, hbind, hret. cbn [co_user co_pass co_method h_live]. look. reflexivity.
  - intros h' E. unfold cred_new3, credential_new3 in *. unfold hbind at 1 in E. rewrite T in E.
    unfold hbind, hlift in E. destruct (credential_new (text vs u) (text vs w)) as [v | | | | | ]; easy.
Qed.

Lemma base_new_text : forall s, base_new (eval p s) h =
  match null_or_blank (text vs s) with
  | Done true => (Throw, h)
  | Done false => match text vs s with
                  | Some t => (Done (mkBO (Some (h_next h)) None None None None), mkHeap (S (h_next h)) ((h_next h, mkB Many (Text t)) :: h_live h))
                  | None => (Undef (UB_NullDeref PArg), h)
                  end
  | Throw => (Throw, h) | Undef u => (Undef u, h) | Blocked => (Blocked, h) | Killed => (Killed, h) | Diverge => (Diverge, h)
  end.
Proof.
  intros s. unfold base_new, hbind at 1. rewrite text_read. unfold hbind at 1, hlift at 1.
  destruct (null_or_blank (text vs s)) as [[ | ] | | | | | ]; try reflexivity.
  unfold c_dup, hbind. rewrite text_read. now destruct (text vs s).
Qed.

Lemma VBase_ok : forall s, outcome_ok (VBase s).
Proof.
  intros s. eapply ctor_ok; [ reflexivity | reflexivity | exact Logic.I | easy | reflexivity | | ].
  - intros a h' E. rewrite base_new_text in E. unfold usable. destruct (null_or_blank (text vs s)) as [[ | ] | | | | | ]; try easy.
    destruct (text vs s) as [t | ]; [ | easy ]. injection E as <- <-.
    eapply shows_intro; [ | refine (eq_refl (contents (SClient _ _ _ _))) ].
    unfold observe, observe_cred, peek, h_text, h_get, hbind, hret. cbn [bo_server bo_log bo_cred h_live]. look. reflexivity.
  - intros h' E. rewrite base_new_text in E. unfold usable. destruct (null_or_blank (text vs s)) as [[ | ] | | | | | ]; try easy.
    now destruct (text vs s).
Qed.

Lemma VCpp_ok : forall s, outcome_ok (VCpp s).
Proof.
  intros s. eapply ctor_ok; [ reflexivity | reflexivity | exact Logic.I | easy | reflexivity | | ].
  - intros a h' E. unfold cpp_new, hbind in E. rewrite base_new_text in E. unfold usable. destruct (null_or_blank (text vs s)) as [[ | ] | | | | | ]; try easy.
    destruct (text vs s) as [t | ]; [ | easy ]. injection E as <- <-.
    eapply shows_intro; [ | refine (eq_refl (contents (SClient _ _ _ _))) ].
    unfold observe, observe_cred, peek, h_text, h_get, hbind, hret. cbn [po_base po_cred bo_server bo_log bo_cred h_live]. look. reflexivity.
  - intros h' E. unfold cpp_new, hbind in E. rewrite base_new_text in E. unfold usable. destruct (null_or_blank (text vs s)) as [[ | ] | | | | | ]; try easy.
    now destruct (text vs s).
Qed.

(** ** Looking at objects *)

Lemma held_seen : forall K x, held K x -> exists w, cred_seen K x w.
Proof.
  intros K x Hh. destruct x as [ | | | | | c | ]; try now exists None. cbn in *. destruct (po_cred c) as [a | ]; [ | now exists None ].
  destruct Hh as ([y v] & I). exists (Some v), y, v. now split.
Qed.

Lemma shows_at : forall x g K w hp R, cobj (x, g) -> cstore K -> cred_seen K x w -> Sat hp (fobj (x, g) ++ fstore K ++ R) ->
  shows x hp (contents (seen x g w)).
Proof.
  intros x g K w hp R C Ck W S. eapply shows_intro; [ | reflexivity ].
  eapply tri_result; [ apply (tri_observe never nothrow x g w K C Ck W) | ]. rewrite <- app_assoc. exact S.
Qed.

Lemma shows_unique : forall x hp a b, shows x hp a -> shows x hp b -> a = b.
Proof. intros x hp a b (v & E & <-) (v2 & E2 & <-). rewrite E in E2. now injection E2 as <-. Qed.

Lemma cin_text : forall a F v X, cin (eval p a) F v -> Sat h (F ++ X) -> v = text vs a.
Proof.
  intros a F v X C S. pose proof (read_arg _ _ _ _ _ C S) as E. rewrite text_read in E. now injection E.
Qed.

Lemma focus : forall i x, get i p = x -> x <> OGone -> exists K L g R w,
  cobj (x, g) /\ cstore K /\ cred_seen K x w /\ value vs i = contents (seen x g w) /\
  Sat h (fobj (x, g) ++ R ++ fstore K ++ L) /\
  (forall a, (exists k, a = AGetter i k) \/ cin (eval p a) (R ++ fstore K) (text vs a)).
Proof.
  intros i x Ei Nx. pose proof (run_in_order l Ca) as T. rewrite El in T. destruct T as (ps & K & L & Ep & (Gd & S) & _).
  rewrite Ep in Ei. destruct (focus1 ps K i x Gd Ei Nx) as (g & R & C & P & Fo & _).
  pose proof (get_held ps K i Gd) as Hh. rewrite Ei in Hh. destruct (held_seen _ _ Hh) as (w & W).
  exists K, L, g, R, w. split; [ exact C | ]. split; [ exact (gd_store _ _ Gd) | ]. split; [ exact W | ].
  assert (S' : Sat h (fobj (x, g) ++ R ++ fstore K ++ L)).
  { eapply Sat_perm; [ | exact S ]. unfold F0. rewrite P. perm. }
  split; [ | split; [ exact S' | ] ].
  - eapply shows_unique; [ | eapply shows_at with (R := R ++ L); [ exact C | exact (gd_store _ _ Gd) | exact W | ] ].
    + pose proof (holds_get _ _ _ i Hp) as Hi. rewrite Ep, Ei in Hi. exact Hi.
    + eapply Sat_perm; [ | exact S' ]. perm.
  - intros a. destruct (eval_cin_setter ps K i x g R a Gd Ei C Fo) as [(k & -> & _) | (v & Cv)]; [ left; now exists k | right ].
    rewrite <- Ep in Cv. rewrite <- (cin_text a _ v (fobj (x, g) ++ L) Cv); [ exact Cv | ].
    eapply Sat_perm; [ | exact S' ]. perm.
Qed.

Lemma focus_two : forall i j x y, i <> j -> get i p = x -> x <> OGone -> get j p = y -> y <> OGone -> exists K L gx gy R wx wy,
  cobj (x, gx) /\ cobj (y, gy) /\ cstore K /\ cred_seen K x wx /\ cred_seen K y wy /\
  value vs i = contents (seen x gx wx) /\ value vs j = contents (seen y gy wy) /\
  Sat h (fobj (x, gx) ++ fobj (y, gy) ++ R ++ fstore K ++ L).
Proof.
  intros i j x y N Ei Nx Ej Ny. pose proof (run_in_order l Ca) as T. rewrite El in T. destruct T as (ps & K & L & Ep & (Gd & S) & _).
  rewrite Ep in Ei, Ej. destruct (focus2 ps K i j x y Gd N Ei Nx Ej Ny) as (gx & gy & R & Cx & Cy & P & _).
  pose proof (get_held ps K i Gd) as Hi. rewrite Ei in Hi. destruct (held_seen _ _ Hi) as (wx & Wx).
  pose proof (get_held ps K j Gd) as Hj. rewrite Ej in Hj. destruct (held_seen _ _ Hj) as (wy & Wy).
  pose proof (gd_store _ _ Gd) as Ck.
  exists K, L, gx, gy, R, wx, wy. do 5 (split; [ assumption | ]).
  assert (S' : Sat h (fobj (x, gx) ++ fobj (y, gy) ++ R ++ fstore K ++ L)).
  { eapply Sat_perm; [ | exact S ]. unfold F0. rewrite P. perm. }
  split; [ | split; [ | exact S' ] ].
  - eapply shows_unique; [ | eapply shows_at with (R := fobj (y, gy) ++ R ++ L); [ exact Cx | exact Ck | exact Wx | ] ].
    + pose proof (holds_get _ _ _ i Hp) as Hv. rewrite Ep, Ei in Hv. exact Hv.
    + eapply Sat_perm; [ | exact S' ]. perm.
  - eapply shows_unique; [ | eapply shows_at with (R := fobj (x, gx) ++ R ++ L); [ exact Cy | exact Ck | exact Wy | ] ].
    + pose proof (holds_get _ _ _ j Hp) as Hv. rewrite Ep, Ej in Hv. exact Hv.
    + eapply Sat_perm; [ | exact S' ]. perm.
Qed.

(** The kind of an object and the kind of its value. *)
Lemma gone_value : forall i, get i p = OGone -> value vs i = SGone.
Proof.
  intros i Ei. pose proof (holds_get _ _ _ i Hp) as Hi. rewrite Ei in Hi. exact (shows_unique _ _ _ _ Hi (gone_shows h)).
Qed.
Definition kind_of (x : obj) (v : obs) : Prop :=
  match x, v with
  | OAddr _, SAddr _ | OAtt _, SAtt _ | OCred _, SCred _ | OMsg _, SMsg _ | OBase _, SClient false _ _ _ | OCpp _, SClient true _ _ _ | OGone, SGone => True
  | _, _ => False
  end.
Lemma value_kind : forall i, kind_of (get i p) (value vs i).
Proof.
  intros i. destruct (get i p) as [o | o | o | o | o | o | ] eqn:Ei; cycle -1; [ now rewrite (gone_value i Ei) | .. ].
  all: destruct (focus i _ Ei ltac:(discriminate)) as (K & L & g & R & w & C & _ & _ & -> & _).
  all: destruct g; cbn in C; try easy; exact Logic.I.
Qed.

(** ** Reading, doing nothing *)

Lemma nothing_ok : forall o, hstep p o = hret p -> after vs o = vs -> outcome_ok o.
Proof. intros o Eo Ea. unfold outcome_ok. rewrite Eo, Ea. exact Hp. Qed.

Lemma tri_done : forall A U E F (m : H A) Q R a h', tri U E F m Q -> Sat h (F ++ R) -> m h = (Done a, h') ->
  exists G, Q a G /\ Sat h' (G ++ R).
Proof. intros A U E F m Q R a h' T S Em. specialize (T h R S). now rewrite Em in T. Qed.
Lemma tri_nothrow : forall A U F (m : H A) Q R h', tri U nothrow F m Q -> Sat h (F ++ R) -> m h <> (Throw, h').
Proof. intros A U F m Q R h' T S Em. specialize (T h R S). rewrite Em in T. now destruct T as (G & T & _). Qed.

(** A new object from an existing one. *)
Lemma push_ok : forall o A (c : A -> obj) (m : H A) w U F R Q, hstep p o = push p (wrap c m) -> is_ctor o = false -> careful p o ->
  (forall k, ~ touches o k) -> after vs o = vs ++ [w] -> Sat h (F ++ R) -> tri U nothrow F m Q ->
  (forall a G h', Q a G -> Sat h' (G ++ R) -> shows (c a) h' w) -> outcome_ok o.
Proof.
  intros o A c m w U F R Q Eo Ic Co Nt Ew S T Hd. unfold outcome_ok. rewrite Ic, Ew.
  destruct (hstep p o h) as [[p' | | u | | | ] h'] eqn:E; try exact Logic.I.
  - pose proof E as E'. rewrite Eo in E'. apply push_done in E' as (a & Ea & Ep).
    destruct (tri_done _ _ _ _ _ _ _ _ _ T S Ea) as (G & q & S'). eapply push_kept; eauto.
  - rewrite Eo in E. unfold push, wrap, hbind, hret in E. destruct (m h) as [[a | | | | | ] h1] eqn:Em; try easy.
    exfalso. exact (tri_nothrow _ _ _ _ _ _ _ T S Em).
Qed.

(** Changing one object. *)
Lemma put_ok : forall o A (c : A -> obj) (m : H A) i w U F R Q, hstep p o = put1 p i (wrap c m) -> is_ctor o = false -> careful p o ->
  (forall k, touches o k -> k = i) -> after vs o = changed vs i w -> Sat h (F ++ R) -> tri U nothrow F m Q ->
  (forall a G h', Q a G -> Sat h' (G ++ R) -> shows (c a) h' w) -> outcome_ok o.
Proof.
  intros o A c m i w U F R Q Eo Ic Co Nt Ew S T Hd. unfold outcome_ok. rewrite Ic, Ew.
  destruct (hstep p o h) as [[p' | | u | | | ] h'] eqn:E; try exact Logic.I.
  - pose proof E as E'. rewrite Eo in E'. apply put1_done in E' as (a & Ea & Ep).
    destruct (tri_done _ _ _ _ _ _ _ _ _ T S Ea) as (G & q & S'). eapply put_kept; eauto.
  - rewrite Eo in E. unfold put1, wrap, hbind, hret in E. destruct (m h) as [[a | | | | | ] h1] eqn:Em; try easy.
    exfalso. exact (tri_nothrow _ _ _ _ _ _ _ T S Em).
Qed.

(** The same for a setter that may throw. *)
Lemma setter_ok : forall o A (c : A -> obj) (m : H A) i, hstep p o = put1 p i (wrap c m) -> is_ctor o = false -> careful p o ->
  (forall k, touches o k -> k = i) ->
  (forall a h', m h = (Done a, h') -> exists w, after vs o = changed vs i w /\ shows (c a) h' w) ->
  (forall h', m h = (Throw, h') -> after vs o = vs) -> outcome_ok o.
Proof.
  intros o A c m i Eo Ic Co Nt Hd Ht. unfold outcome_ok. rewrite Ic.
  destruct (hstep p o h) as [[p' | | u | | | ] h'] eqn:E; try exact Logic.I.
  - pose proof E as E'. rewrite Eo in E'. apply put1_done in E' as (a & Ea & Ep).
    destruct (Hd _ _ Ea) as (w & -> & Hw). eapply put_kept; eauto.
  - pose proof E as E'. rewrite Eo in E'. unfold put1, wrap, hbind, hret in E'. destruct (m h) as [[a | | | | | ] h1] eqn:Em; try easy.
    rewrite (Ht _ eq_refl). exact (throw_kept o h' Co E).
Qed.

Lemma put2_ok : forall o A (c : A -> obj) (m : H (A * A)) i j w z U F R Q, hstep p o = put2 p i j (wrap2 c m) -> is_ctor o = false -> careful p o ->
  i <> j -> (forall k, touches o k -> k = i \/ k = j) -> after vs o = changed (changed vs i w) j z -> Sat h (F ++ R) -> tri U nothrow F m Q ->
  (forall a b G h', Q (a, b) G -> Sat h' (G ++ R) -> shows (c a) h' w /\ shows (c b) h' z) -> outcome_ok o.
Proof.
  intros o A c m i j w z U F R Q Eo Ic Co N Nt Ew S T Hd. unfold outcome_ok. rewrite Ic, Ew.
  destruct (hstep p o h) as [[p' | | u | | | ] h'] eqn:E; try exact Logic.I.
  - pose proof E as E'. rewrite Eo in E'. apply put2_done in E' as (a & b & Ea & Ep).
    destruct (tri_done _ _ _ _ _ _ _ _ _ T S Ea) as (G & q & S'). destruct (Hd _ _ _ _ q S'). eapply put2_kept; eauto.
  - rewrite Eo in E. unfold put2, wrap2, hbind, hret in E. destruct (m h) as [[[a b] | | | | | ] h1] eqn:Em; try easy.
    exfalso. exact (tri_nothrow _ _ _ _ _ _ _ T S Em).
Qed.

Definition any : ub -> Prop := fun _ => True.
Lemma any_nulls : nulls any.
Proof. intros q. exact Logic.I. Qed.
Lemma any_ok : okU any.
Proof. split; [ exact any_nulls | exact Logic.I ]. Qed.

Lemma VRead_ok : forall i, outcome_ok (VRead i).
Proof.
  intros i. unfold outcome_ok. cbn [is_ctor after]. destruct (hstep p (VRead i) h) as [[p' | | u | | | ] h'] eqn:E; try exact Logic.I.
  - eapply (same_kept (VRead i)); [ exact Logic.I | exact E | | easy ]. cbn [hstep] in E.
    destruct (get i p); unfold hbind, hret in E;
      repeat match type of E with context [match ?d with _ => _ end] =>
               lazymatch d with _ h => destruct d as [[] ?]; try easy end end; now injection E.
  - exact (throw_kept (VRead i) h' Logic.I E).
Qed.

Ltac focus_on i Ei :=
  let K := fresh "K" in let L := fresh "L" in let g := fresh "g" in let R := fresh "R" in let w := fresh "w" in
  destruct (focus i _ Ei ltac:(discriminate)) as (K & L & g & R & w & C & Ck & W & V & S & Cin);
  destruct g as [v | v | v | v | v | ]; cbn in C; try easy.

(** A message shows its content whatever its arrays are. *)
Lemma message_shows : forall m g hp X, cmsg m g -> Sat hp (fmsg m g ++ X) -> shows (OMsg m) hp (SMsg (message_of (view_of m g))).
Proof.
  intros m g hp X C S. eapply shows_intro; [ cbn [observe]; unfold hbind | ].
  - pose proof (read_at m g hp X C S) as E. destruct (read_msg m hp) as [r h']. cbn in E. subst r. reflexivity.
  - reflexivity.
Qed.
Lemma message_same : forall m g m' g', same_vals g g' -> mo_nto m' = mo_nto m -> mo_ncc m' = mo_ncc m ->
  mo_nbcc m' = mo_nbcc m -> mo_natts m' = mo_natts m ->
  message_of (view_of m' g') = mkView (g_from g') (Some (vals (g_to g))) (mo_nto m) (Some (vals (g_cc g))) (mo_ncc m)
    (Some (vals (g_bcc g))) (mo_nbcc m) (g_subject g) (g_body g) (Some (vals (g_atts g))) (mo_natts m).
Proof.
  intros m g m' g' (E1 & E2 & E3 & E4 & E5 & E6) N1 N2 N3 N4. unfold message_of, view_of.
  cbn [w_from w_to w_nto w_cc w_ncc w_bcc w_nbcc w_subject w_body w_atts w_natts]. rewrite !shown_view.
  now rewrite E1, E2, E3, E4, E5, E6, N1, N2, N3, N4.
Qed.
Lemma message_self : forall m g,
  message_of (view_of m g) = mkView (g_from g) (Some (vals (g_to g))) (mo_nto m) (Some (vals (g_cc g))) (mo_ncc m)
    (Some (vals (g_bcc g))) (mo_nbcc m) (g_subject g) (g_body g) (Some (vals (g_atts g))) (mo_natts m).
Proof. intros m g. now apply message_same. Qed.

Lemma VCopy_ok : forall i, outcome_ok (VCopy i).
Proof.
  intros i. destruct (get i p) as [o | o | o | o | o | o | ] eqn:Ei; cycle -1.
  { apply nothing_ok; cbn [hstep after]; [ now rewrite Ei | now rewrite (gone_value i Ei) ]. }
  all: focus_on i Ei.
  - eapply (push_ok _ _ OAddr (addr_copy o) _ any);
      [ cbn [hstep]; rewrite Ei; reflexivity | reflexivity | exact Logic.I | easy | cbn [after]; rewrite V; reflexivity | exact S
      | apply (tri_addr_copy any nothrow o v C (or_intror any_nulls)) | ].
    intros a G h' (C' & _ & ->) S'. eapply (shows_at (OAddr a) (GAddr v) K None); [ exact C' | exact Ck | exact Logic.I | ].
    eapply Sat_perm; [ | exact S' ]. cbn [fobj]. perm.
  - eapply (push_ok _ _ OAtt (att_copy o) _ any);
      [ cbn [hstep]; rewrite Ei; reflexivity | reflexivity | exact Logic.I | easy | cbn [after]; rewrite V; reflexivity | exact S
      | apply (tri_att_copy any nothrow o v C (or_intror any_nulls)) | ].
    intros a G h' (C' & _ & ->) S'. eapply (shows_at (OAtt a) (GAtt v) K None); [ exact C' | exact Ck | exact Logic.I | ].
    eapply Sat_perm; [ | exact S' ]. cbn [fobj]. perm.
  - eapply (push_ok _ _ OCred (cred_copy o) _ any);
      [ cbn [hstep]; rewrite Ei; reflexivity | reflexivity | exact Logic.I | easy | cbn [after]; rewrite V; reflexivity | exact S
      | apply (tri_cred_copy any nothrow o v C (or_intror any_nulls)) | ].
    intros a G h' (C' & _ & ->) S'. eapply (shows_at (OCred a) (GCred v) K None); [ exact C' | exact Ck | exact Logic.I | ].
    eapply Sat_perm; [ | exact S' ]. cbn [fobj]. perm.
  - eapply (push_ok _ _ OMsg (msg_copy o) _ any);
      [ cbn [hstep]; rewrite Ei; reflexivity | reflexivity | exact Logic.I | easy | cbn [after]; rewrite V; reflexivity | exact S
      | apply (tri_msg_copy any nothrow o v C (or_intror any_nulls)) | ].
    intros a G h' (g' & C' & _ & _ & Ef & Es & N1 & N2 & N3 & N4 & ->) S'.
    cbn [seen contents]. change (mkView _ _ _ _ _ _ _ _ _ _ _) with (view_of o v).
    replace (message_of (view_of o v)) with (message_of (view_of a g')).
    2:{ rewrite (message_same o v a g' Es N1 N2 N3 N4), message_self. now rewrite Ef. }
    eapply message_shows; [ exact C' | ]. eapply Sat_perm; [ | exact S' ]. perm.
  - eapply (push_ok _ _ OBase (base_copy o) _ any);
      [ cbn [hstep]; rewrite Ei; reflexivity | reflexivity | exact Logic.I | easy | cbn [after]; rewrite V; reflexivity | exact S
      | apply (tri_base_copy any nothrow o v C (or_intror any_nulls)) | ].
    intros a G h' (g' & C' & (E1 & E2 & E3 & E4) & ->) S'.
    cbn [seen contents]. rewrite <- E1, <- E2, <- E4.
    eapply (shows_at (OBase a) (GBase g') K None); [ exact C' | exact Ck | exact Logic.I | ].
    eapply Sat_perm; [ | exact S' ]. cbn [fobj]. perm.
  - assert (T : tri any nothrow (fbase (po_base o) v) (cpp_copy o) (fun a G => exists g', cbase (po_base a) g' /\ same_base v g' /\
      po_cred a = po_cred o /\ G = fbase (po_base o) v ++ fbase (po_base a) g')).
    { unfold cpp_copy. eapply tri_seq; [ apply (tri_base_copy any _ (po_base o) v C (or_intror any_nulls)) | perm | ].
      intros b G (g' & C' & Es & ->). eapply tri_ret; [ | exists g'; split; [ exact C' | split; [ exact Es | split; reflexivity ] ] ].
      cbn [po_base]. perm. }
    eapply (push_ok _ _ OCpp (cpp_copy o) _ any);
      [ cbn [hstep]; rewrite Ei; reflexivity | reflexivity | exact Logic.I | easy | cbn [after]; rewrite V; reflexivity | exact S
      | exact T | ].
    intros a G h' (g' & C' & (E1 & E2 & E3 & E4) & Ep & ->) S'.
    cbn [seen contents]. rewrite <- E1, <- E2.
    eapply (shows_at (OCpp a) (GBase g') K w); [ exact C' | exact Ck | cbn [cred_seen] in *; now rewrite Ep | ].
    eapply Sat_perm; [ | exact S' ]. cbn [fobj]. perm.
Qed.

Lemma move_ok : forall i x y r w, get i p = x -> hstep p (VMove i) h = (Done (set i r p ++ [y]), h) ->
  value vs i = w -> w <> SGone -> shows y h w -> shows r h (left_over w) -> outcome_ok (VMove i).
Proof.
  intros i x y r w Ei E V Nw Hy Hr. unfold outcome_ok. rewrite E. cbn [after]. rewrite V.
  assert (X : holds (set i r p ++ [y]) h (changed vs i (left_over w) ++ [w])) by (apply holds_push; [ now apply holds_set | exact Hy ]).
  destruct w; try exact X. now destruct Nw.
Qed.

Lemma VMove_ok : forall i, outcome_ok (VMove i).
Proof.
  intros i. destruct (get i p) as [o | o | o | o | o | o | ] eqn:Ei; cycle -1.
  { apply nothing_ok; cbn [hstep after]; [ now rewrite Ei | now rewrite (gone_value i Ei) ]. }
  all: pose proof (holds_get _ _ _ i Hp) as Hi; rewrite Ei in Hi.
  all: focus_on i Ei.
  - eapply (move_ok i _ (OAddr o) (OAddr addr_null)); [ exact Ei | cbn [hstep]; rewrite Ei; reflexivity | exact V | discriminate | now rewrite <- V | ].
    eapply shows_intro; reflexivity.
  - destruct v as [[v1 v2] v3].
    eapply (move_ok i _ (OAtt o) (OAtt att_null)); [ exact Ei | cbn [hstep]; rewrite Ei; reflexivity | exact V | discriminate | now rewrite <- V | ].
    eapply shows_intro; reflexivity.
  - destruct v as [[v1 v2] v3].
    eapply (move_ok i _ (OCred o) (OCred (cred_null o))); [ exact Ei | cbn [hstep]; rewrite Ei; reflexivity | exact V | discriminate | now rewrite <- V | ].
    destruct C as (_ & _ & Em). cbn in Em. subst v3. eapply shows_intro; reflexivity.
  - eapply (move_ok i _ (OMsg o) (OMsg (msg_null addr_null))); [ exact Ei | | exact V | discriminate | now rewrite <- V | ].
    + cbn [hstep]. rewrite Ei. unfold pushput, wrap2, msg_move, addr_move, hbind, hret. now destruct o.
    + eapply shows_intro; reflexivity.
  - eapply (move_ok i _ (OBase o) (OBase base_null)); [ exact Ei | cbn [hstep]; rewrite Ei; reflexivity | exact V | discriminate | now rewrite <- V | ].
    eapply shows_intro; reflexivity.
  - eapply (move_ok i _ (OCpp o) (OCpp (mkPO base_null (po_cred o)))); [ exact Ei | | exact V | discriminate | now rewrite <- V | ].
    + cbn [hstep]. rewrite Ei. unfold pushput, wrap2, cpp_move, base_move, hbind, hret. now destruct o.
    + eapply (shows_at (OCpp (mkPO base_null (po_cred o))) (GBase gbnull) K w); [ exact cbase_null | exact Ck | exact W | ].
      cbn [fobj po_base]. rewrite fbase_null. eapply Sat_perm; [ | exact S ]. instantiate (1 := fobj (OCpp o, GBase v) ++ R ++ L). perm.
Qed.

Ltac two_on i j N Ei Ej :=
  let K := fresh "K" in let L := fresh "L" in let gx := fresh "g" in let gy := fresh "g" in let R := fresh "R" in
  let wx := fresh "w" in let wy := fresh "w" in
  destruct (focus_two i j _ _ N Ei ltac:(discriminate) Ej ltac:(discriminate)) as (K & L & gx & gy & R & wx & wy & C & C2 & Ck & W & W2 & V & V2 & S);
  destruct gx as [v | v | v | v | v | ]; cbn in C; try easy;
  destruct gy as [v2 | v2 | v2 | v2 | v2 | ]; cbn in C2; try easy;
  rewrite app_assoc in S.

Lemma wrong_class : forall i j, same_class (value vs i) (value vs j) = false ->
  match get i p, get j p with
  | OAddr _, OAddr _ | OAtt _, OAtt _ | OCred _, OCred _ | OMsg _, OMsg _ | OBase _, OBase _ | OCpp _, OCpp _ => False
  | _, _ => True
  end.
Proof.
  intros i j E. pose proof (value_kind i) as Ki. pose proof (value_kind j) as Kj.
  destruct (get i p); try exact Logic.I; destruct (get j p); try exact Logic.I;
    destruct (value vs i) as [ | | | | [ | ] | ]; try easy; destruct (value vs j) as [ | | | | [ | ] | ]; try easy.
Qed.
Lemma right_class : forall i j, same_class (value vs i) (value vs j) = true ->
  match get i p, get j p with
  | OAddr _, OAddr _ | OAtt _, OAtt _ | OCred _, OCred _ | OMsg _, OMsg _ | OBase _, OBase _ | OCpp _, OCpp _ => True
  | _, _ => False
  end.
Proof.
  intros i j E. pose proof (value_kind i) as Ki. pose proof (value_kind j) as Kj.
  destruct (get i p); destruct (value vs i) as [ | | | | [ | ] | ]; try easy;
    destruct (value vs j) as [ | | | | [ | ] | ]; try easy; destruct (get j p); easy.
Qed.

Lemma VAssign_ok : forall i j, careful p (VAssign i j) -> outcome_ok (VAssign i j).
Proof.
  intros i j Co. destruct (Nat.eqb_spec i j) as [Eij | N].
  { apply nothing_ok; cbn [hstep after]; apply Nat.eqb_eq in Eij; now rewrite Eij. }
  apply Nat.eqb_neq in N as Nb. destruct (same_class (value vs i) (value vs j)) eqn:Sc.
  2:{ pose proof (wrong_class i j Sc) as X. apply nothing_ok; cbn [hstep after]; rewrite Nb, ?Sc; [ | reflexivity ].
      destruct (get i p), (get j p); try reflexivity; now destruct X. }
  pose proof (right_class i j Sc) as X.
  assert (Ea : after vs (VAssign i j) = changed vs i (assigned (value vs i) (value vs j))) by (cbn [after]; now rewrite Nb, Sc).
  destruct (get i p) as [o | o | o | o | o | o | ] eqn:Ei; try easy; destruct (get j p) as [o2 | o2 | o2 | o2 | o2 | o2 | ] eqn:Ej; try easy.
  all: clear X; two_on i j N Ei Ej.
  all: assert (Eo : forall A (c : A -> obj) m, hstep p (VAssign i j) = put1 p i (wrap c m) -> hstep p (VAssign i j) = put1 p i (wrap c m)) by auto.
  - eapply (put_ok _ _ OAddr (addr_assign o o2) i _ any); [ cbn [hstep]; rewrite Nb, Ei, Ej; reflexivity | reflexivity | exact Co | easy | exact Ea | exact S
      | apply (tri_addr_assign any nothrow o v o2 v2 C C2 (or_intror any_nulls)) | ].
    intros a G h' (C' & _ & ->) S'. rewrite V, V2. eapply (shows_at (OAddr a) (GAddr v2) K None); [ exact C' | exact Ck | exact Logic.I | ].
    eapply Sat_perm; [ | exact S' ]. cbn [fobj]. perm.
  - eapply (put_ok _ _ OAtt (att_assign o o2) i _ any); [ cbn [hstep]; rewrite Nb, Ei, Ej; reflexivity | reflexivity | exact Co | easy | exact Ea | exact S
      | apply (tri_att_assign any nothrow o v o2 v2 C C2 (or_intror any_nulls)) | ].
    intros a G h' (C' & _ & ->) S'. rewrite V, V2. eapply (shows_at (OAtt a) (GAtt v2) K None); [ exact C' | exact Ck | exact Logic.I | ].
    eapply Sat_perm; [ | exact S' ]. cbn [fobj]. perm.
  - eapply (put_ok _ _ OCred (cred_assign o o2) i _ any); [ cbn [hstep]; rewrite Nb, Ei, Ej; reflexivity | reflexivity | exact Co | easy | exact Ea | exact S
      | apply (tri_cred_assign any nothrow o v o2 v2 C C2 (or_intror any_nulls)) | ].
    intros a G h' (C' & _ & ->) S'. rewrite V, V2. eapply (shows_at (OCred a) (GCred v2) K None); [ exact C' | exact Ck | exact Logic.I | ].
    eapply Sat_perm; [ | exact S' ]. cbn [fobj]. perm.
  - cbn [careful] in Co. rewrite Ei, Ej in Co. pose proof Co as [? | (R1 & R2 & R3 & R4)]; [ contradiction | ].
    eapply (put_ok _ _ OMsg (msg_assign o o2) i _ any);
      [ cbn [hstep]; rewrite Nb, Ei, Ej; reflexivity | reflexivity | cbn [careful]; now rewrite Ei, Ej | easy | exact Ea | exact S
      | apply (tri_msg_assign any nothrow o v o2 v2 C C2 (mkRoom _ _ R1 R2 R3 R4) (or_intror any_nulls)) | ].
    intros a G h' (g' & Z & C' & Ef & Es & N1 & N2 & N3 & N4 & _ & ->) S'. rewrite V, V2. cbn [seen contents assigned].
    change (mkView (g_from v) _ _ _ _ _ _ _ _ _ _) with (view_of o v). change (mkView (g_from v2) _ _ _ _ _ _ _ _ _ _) with (view_of o2 v2).
    replace (mkView _ _ _ _ _ _ _ _ _ _ _) with (message_of (view_of a g')).
    2:{ rewrite (message_same o2 v2 a g' Es N1 N2 N3 N4), !message_self. cbn [w_from w_to w_nto w_cc w_ncc w_bcc w_nbcc w_subject w_body w_atts w_natts].
        now rewrite Ef. }
    eapply message_shows; [ exact C' | ]. eapply Sat_perm; [ | exact S' ]. perm.
  - eapply (put_ok _ _ OBase (base_assign o o2) i _ any); [ cbn [hstep]; rewrite Nb, Ei, Ej; reflexivity | reflexivity | exact Co | easy | exact Ea | exact S
      | apply (tri_base_assign any nothrow o v o2 v2 C C2 (or_intror any_nulls)) | ].
    intros a G h' (g' & C' & (E1 & E2 & E3 & E4) & ->) S'. rewrite V, V2. cbn [seen contents assigned]. rewrite <- E1, <- E2, <- E4.
    eapply (shows_at (OBase a) (GBase g') K None); [ exact C' | exact Ck | exact Logic.I | ].
    eapply Sat_perm; [ | exact S' ]. cbn [fobj]. perm.
  - assert (T : tri any nothrow (fbase (po_base o) v ++ fbase (po_base o2) v2) (cpp_assign o o2) (fun a G => exists g' Z, cbase (po_base a) g' /\
      same_base v2 g' /\ po_cred a = po_cred o2 /\ G = fbase (po_base a) g' ++ Z)).
    { unfold cpp_assign. eapply tri_seq; [ apply (tri_base_assign any _ (po_base o) v (po_base o2) v2 C C2 (or_intror any_nulls)) | perm | ].
      intros b G (g' & C' & Es & ->). eapply tri_ret; [ | exists g'; eexists; split; [ exact C' | split; [ exact Es | split; reflexivity ] ] ].
      cbn [po_base]. perm. }
    eapply (put_ok _ _ OCpp (cpp_assign o o2) i _ any); [ cbn [hstep]; rewrite Nb, Ei, Ej; reflexivity | reflexivity | exact Co | easy | exact Ea | exact S
      | exact T | ].
    intros a G h' (g' & Z & C' & (E1 & E2 & E3 & E4) & Ep & ->) S'. rewrite V, V2. cbn [seen contents assigned]. rewrite <- E1, <- E2.
    eapply (shows_at (OCpp a) (GBase g') K); [ exact C' | exact Ck | cbn [cred_seen] in *; rewrite Ep; exact W2 | ].
    eapply Sat_perm; [ | exact S' ]. cbn [fobj]. perm.
Qed.

Lemma VMoveAssign_ok : forall i j, outcome_ok (VMoveAssign i j).
Proof.
  intros i j. destruct (Nat.eqb_spec i j) as [Eij | N].
  { apply nothing_ok; cbn [hstep after]; apply Nat.eqb_eq in Eij; now rewrite Eij. }
  apply Nat.eqb_neq in N as Nb. destruct (same_class (value vs i) (value vs j)) eqn:Sc.
  2:{ pose proof (wrong_class i j Sc) as X. apply nothing_ok; cbn [hstep after]; rewrite Nb, ?Sc; [ | reflexivity ].
      destruct (get i p), (get j p); try reflexivity; now destruct X. }
  pose proof (right_class i j Sc) as X.
  assert (Ea : after vs (VMoveAssign i j) = changed (changed vs i (value vs j)) j (left_over_assigned (value vs j))) by (cbn [after]; now rewrite Nb, Sc).
  destruct (get i p) as [o | o | o | o | o | o | ] eqn:Ei; try easy; destruct (get j p) as [o2 | o2 | o2 | o2 | o2 | o2 | ] eqn:Ej; try easy.
  all: clear X; two_on i j N Ei Ej.
  - eapply (put2_ok _ _ OAddr (addr_move_assign o o2) i j _ _ any); [ cbn [hstep]; rewrite Nb, Ei, Ej; reflexivity | reflexivity | exact Logic.I | exact N | easy | exact Ea | exact S
      | apply (tri_addr_move_assign any nothrow o v o2 v2 C C2) | ].
    intros a b G h' ([= -> ->] & ->) S'. rewrite V2. split; [ | eapply shows_intro; reflexivity ].
    eapply (shows_at (OAddr o2) (GAddr v2) K None); [ exact C2 | exact Ck | exact Logic.I | ].
    eapply Sat_perm; [ | exact S' ]. cbn [fobj]. perm.
  - destruct v2 as [[u1 u2] u3].
    eapply (put2_ok _ _ OAtt (att_move_assign o o2) i j _ _ any); [ cbn [hstep]; rewrite Nb, Ei, Ej; reflexivity | reflexivity | exact Logic.I | exact N | easy | exact Ea | exact S
      | apply (tri_att_move_assign any nothrow o v o2 _ C C2) | ].
    intros a b G h' ([= -> ->] & ->) S'. rewrite V2. split; [ | eapply shows_intro; reflexivity ].
    eapply (shows_at (OAtt o2) (GAtt (u1, u2, u3)) K None); [ exact C2 | exact Ck | exact Logic.I | ].
    eapply Sat_perm; [ | exact S' ]. cbn [fobj]. perm.
  - destruct v2 as [[u1 u2] u3].
    eapply (put2_ok _ _ OCred (cred_move_assign o o2) i j _ _ any); [ cbn [hstep]; rewrite Nb, Ei, Ej; reflexivity | reflexivity | exact Logic.I | exact N | easy | exact Ea | exact S
      | apply (tri_cred_move_assign any nothrow o v o2 _ C C2) | ].
    intros a b G h' ([= -> ->] & ->) S'. rewrite V2. split.
    + eapply (shows_at (OCred o2) (GCred (u1, u2, u3)) K None); [ exact C2 | exact Ck | exact Logic.I | ].
      eapply Sat_perm; [ | exact S' ]. cbn [fobj]. perm.
    + destruct C2 as (_ & _ & Em). cbn in Em. subst u3. eapply shows_intro; reflexivity.
  - eapply (put2_ok _ _ OMsg (msg_move_assign o o2) i j _ _ any); [ cbn [hstep]; rewrite Nb, Ei, Ej; reflexivity | reflexivity | exact Logic.I | exact N | easy | exact Ea | exact S
      | apply (tri_msg_move_assign any nothrow o v o2 v2 C C2 (or_intror any_nulls)) | ].
    intros a b G h' (m' & [= -> ->] & C' & _ & N1 & N2 & N3 & N4 & ->) S'. rewrite V2. cbn [seen contents].
    change (mkView (g_from v2) _ _ _ _ _ _ _ _ _ _) with (view_of o2 v2).
    split.
    + replace (message_of (view_of o2 v2)) with (message_of (view_of m' v2)) by (rewrite !message_self; now rewrite N1, N2, N3, N4).
      eapply message_shows; [ exact C' | ]. rewrite <- app_assoc in S'. exact S'.
    + cbn [left_over_assigned]. rewrite message_self. cbn [w_from].
      replace (mkView _ _ _ _ _ _ _ _ _ _ _) with (message_of (view_of (msg_null (mo_from o2)) (gnull (g_from v2)))) by reflexivity.
      eapply message_shows; [ apply cmsg_null, C2 | ]. eapply Sat_perm; [ | exact S' ]. perm.
  - eapply (put2_ok _ _ OBase (base_move_assign o o2) i j _ _ any); [ cbn [hstep]; rewrite Nb, Ei, Ej; reflexivity | reflexivity | exact Logic.I | exact N | easy | exact Ea | exact S
      | apply (tri_base_move_assign any nothrow o v o2 v2 C C2) | ].
    intros a b G h' ([= -> ->] & ->) S'. rewrite V2. split; [ | eapply shows_intro; reflexivity ].
    eapply (shows_at (OBase o2) (GBase v2) K None); [ exact C2 | exact Ck | exact Logic.I | ].
    eapply Sat_perm; [ | exact S' ]. cbn [fobj]. perm.
  - eapply (put2_ok _ _ OCpp (cpp_move_assign o o2) i j _ _ any); [ cbn [hstep]; rewrite Nb, Ei, Ej; reflexivity | reflexivity | exact Logic.I | exact N | easy | exact Ea | exact S
      | apply (tri_cpp_move_assign any nothrow o v o2 v2 C C2) | ].
    intros a b G h' ([= -> ->] & ->) S'. rewrite V2. split.
    + eapply (shows_at (OCpp o2) (GBase v2) K); [ exact C2 | exact Ck | exact W2 | ].
      eapply Sat_perm; [ | exact S' ]. cbn [fobj]. perm.
    + eapply (shows_at (OCpp (mkPO base_null (po_cred o2))) (GBase gbnull) K); [ exact cbase_null | exact Ck | exact W2 | ].
      cbn [fobj po_base]. rewrite fbase_null. eapply Sat_perm; [ | exact S' ]. perm.
Qed.

(** ** Setters *)

Lemma c_read_nothrow : forall c hp h', c_read c hp <> (Throw, h').
Proof.
  intros [ | s | [a | ]] hp h'; cbn; try easy. unfold hbind, h_text, h_get, hret, hbind.
  destruct (lookup a (h_live hp)) as [[k []] | ]; easy.
Qed.
Lemma c_dup_nothrow : forall c hp h', c_dup c hp <> (Throw, h').
Proof.
  intros c hp h'. unfold c_dup, hbind. destruct (c_read c hp) as [[[x | ] | | | | | ] h1] eqn:E; try easy. now apply c_read_nothrow in E.
Qed.
Lemma h_del_nothrow : forall k q hp h', h_del k q hp <> (Throw, h').
Proof.
  intros k [a | ] hp h'; unfold h_del, hret, hundef; [ | easy ].
  repeat match goal with |- context [match ?d with _ => _ end] => destruct d end; easy.
Qed.

Lemma checked_done : forall A u (m : H A) a h',
  (x <~ c_read (eval p u) ;; bad <~ hlift (null_or_blank x) ;; if bad then hlift Throw else m) h = (Done a, h') -> usable (text vs u) = true.
Proof.
  intros A u m a h' E. unfold hbind at 1 in E. rewrite text_read in E. unfold usable.
  unfold hbind, hlift in E. now destruct (null_or_blank (text vs u)) as [[ | ] | | | | | ].
Qed.
Lemma checked_throw : forall A u (m : H A) h', (forall hp h', m hp <> (Throw, h')) ->
  (x <~ c_read (eval p u) ;; bad <~ hlift (null_or_blank x) ;; if bad then hlift Throw else m) h = (Throw, h') -> usable (text vs u) = false.
Proof.
  intros A u m h' Nt E. unfold hbind at 1 in E. rewrite text_read in E. unfold usable.
  unfold hbind, hlift in E. destruct (null_or_blank (text vs u)) as [[ | ] | | | | | ]; try easy. now apply Nt in E.
Qed.
Lemma replaced_nothrow : forall A k q c (f : ptr -> A) hp h', (h_del k q ;;~ r <~ c_dup c ;; hret (f r)) hp <> (Throw, h').
Proof.
  intros A k q c f hp h'. unfold hbind. destruct (h_del k q hp) as [[x | | | | | ] h1] eqn:E; try easy; [ | now apply h_del_nothrow in E ].
  destruct (c_dup c h1) as [[y | | | | | ] h2] eqn:E2; try easy. now apply c_dup_nothrow in E2.
Qed.

Lemma VSetMethod_ok : forall i m, outcome_ok (VSetMethod i m).
Proof.
  intros i m. pose proof (value_kind i) as Kd. destruct (get i p) as [o | o | o | o | o | o | ] eqn:Ei; cbn in Kd.
  all: try (apply nothing_ok; cbn [hstep after]; [ now rewrite Ei | now destruct (value vs i) ]).
  focus_on i Ei. destruct v as [[u w0] m0].
  assert (T : tri any nothrow (fobj (OCred o, GCred (u, w0, m0))) (cred_setMethod o m)
    (fun a G => a = mkCO (co_user o) (co_pass o) m /\ G = fcred a (u, w0, m))).
  { eapply tri_ret; [ | split; reflexivity ]. cbn [fobj]. unfold fcred. cbn [co_user co_pass fst snd]. perm. }
  eapply (put_ok _ _ OCred (cred_setMethod o m) i _ any); [ cbn [hstep]; rewrite Ei; reflexivity | reflexivity | exact Logic.I | easy
    | cbn [after]; rewrite V; reflexivity | exact S
    | exact T | ].
  intros a G h' (-> & ->) S'. destruct C as (C1 & C2 & _).
  eapply (shows_at (OCred (mkCO (co_user o) (co_pass o) m)) (GCred (u, w0, m)) K None); [ now repeat split | exact Ck | exact Logic.I | ].
  eapply Sat_perm; [ | exact S' ]. cbn [fobj]. perm.
Qed.

Lemma VSetContentId_ok : forall i c, outcome_ok (VSetContentId i c).
Proof.
  intros i c. pose proof (value_kind i) as Kd. destruct (get i p) as [o | o | o | o | o | o | ] eqn:Ei; cbn in Kd.
  all: try (apply nothing_ok; cbn [hstep after]; [ now rewrite Ei | now destruct (value vs i) ]).
  focus_on i Ei. destruct v as [[n f] c0].
  assert (Cc : cin (eval p c) (fatt o (n, f, c0) ++ R ++ fstore K) (text vs c)).
  { destruct (Cin c) as [(k & ->) | Cc].
    - cbn [eval text]. rewrite Ei, V. apply cin_app. apply (getter_field (OAtt o) (GAtt (n, f, c0)) w k C).
    - eapply cin_perm; [ | apply (cin_app _ _ (fatt o (n, f, c0)) _ Cc) ]. perm. }
  assert (S2 : Sat h ((fatt o (n, f, c0) ++ R ++ fstore K) ++ L)) by (eapply Sat_perm; [ | exact S ]; cbn [fobj]; perm).
  eapply (put_ok _ _ OAtt (att_setContentId o (eval p c)) i _ any); [ cbn [hstep]; rewrite Ei; reflexivity | reflexivity | exact Logic.I | easy
    | cbn [after]; rewrite V; reflexivity | exact S2 | exact (tri_setContentId any nothrow o (n, f, c0) _ _ _ any_nulls C Cc) | ].
  intros a G h' (s & -> & C' & ->) S'.
  eapply (shows_at (OAtt a) (GAtt (n, f, Some s)) K None); [ exact C' | exact Ck | exact Logic.I | ].
  eapply Sat_perm; [ | exact S' ]. cbn [fobj fst]. perm.
Qed.

Lemma VSetUsername_ok : forall i u, careful p (VSetUsername i u) -> outcome_ok (VSetUsername i u).
Proof.
  intros i u Co. pose proof (value_kind i) as Kd. destruct (get i p) as [o | o | o | o | o | o | ] eqn:Ei; cbn in Kd.
  all: try (apply nothing_ok; cbn [hstep after]; [ now rewrite Ei | now destruct (value vs i) ]).
  focus_on i Ei. destruct v as [[n f] c0]. cbn [careful] in Co.
  assert (Cc : cin (eval p u) (ftext (co_pass o) f ++ R ++ fstore K) (text vs u)).
  { destruct (Cin u) as [(k & ->) | Cc].
    - cbn [eval text]. rewrite Ei, V. destruct k as [ | [ | k]]; [ congruence | | now destruct k ]. apply cin_app.
      destruct C as (_ & C2 & _). eapply ctext_cin; [ exact C2 | rewrite app_nil_r; apply Permutation_refl ].
    - eapply cin_perm; [ | apply (cin_app _ _ (ftext (co_pass o) f) _ Cc) ]. perm. }
  assert (S2 : Sat h ((fcred o (n, f, c0) ++ R ++ fstore K) ++ L)) by (eapply Sat_perm; [ | exact S ]; cbn [fobj]; perm).
  eapply (setter_ok _ _ OCred (cred_setUsername o (eval p u)) i); [ cbn [hstep]; rewrite Ei; reflexivity | reflexivity | exact Co | easy | | ].
  - intros a h' E. cbn [after]. rewrite V. cbn [seen contents]. rewrite (checked_done _ _ _ _ _ E). eexists. split; [ reflexivity | ].
    destruct (tri_done _ _ _ _ _ _ _ _ _ (tri_setUsername any (fun _ => True) o (n, f, c0) _ _ _ any_ok C Cc Logic.I) S2 E) as (G & (s & Es & C' & ->) & S').
    rewrite Es. eapply (shows_at (OCred a) (GCred (Some s, f, c0)) K None); [ exact C' | exact Ck | exact Logic.I | ].
    eapply Sat_perm; [ | exact S' ]. cbn [fobj fst snd]. perm.
  - intros h' E. cbn [after]. rewrite V. cbn [seen contents]. rewrite (checked_throw _ _ _ _ (replaced_nothrow _ _ _ _ _) E). reflexivity.
Qed.

Lemma VSetPassword_ok : forall i u, careful p (VSetPassword i u) -> outcome_ok (VSetPassword i u).
Proof.
  intros i u Co. pose proof (value_kind i) as Kd. destruct (get i p) as [o | o | o | o | o | o | ] eqn:Ei; cbn in Kd.
  all: try (apply nothing_ok; cbn [hstep after]; [ now rewrite Ei | now destruct (value vs i) ]).
  focus_on i Ei. destruct v as [[n f] c0]. cbn [careful] in Co.
  assert (Cc : cin (eval p u) (ftext (co_user o) n ++ R ++ fstore K) (text vs u)).
  { destruct (Cin u) as [(k & ->) | Cc].
    - cbn [eval text]. rewrite Ei, V. destruct k as [ | [ | k]]; [ | congruence | now destruct k ]. apply cin_app.
      destruct C as (C2 & _ & _). eapply ctext_cin; [ exact C2 | rewrite app_nil_r; apply Permutation_refl ].
    - eapply cin_perm; [ | apply (cin_app _ _ (ftext (co_user o) n) _ Cc) ]. perm. }
  assert (S2 : Sat h ((fcred o (n, f, c0) ++ R ++ fstore K) ++ L)) by (eapply Sat_perm; [ | exact S ]; cbn [fobj]; perm).
  eapply (setter_ok _ _ OCred (cred_setPassword o (eval p u)) i); [ cbn [hstep]; rewrite Ei; reflexivity | reflexivity | exact Co | easy | | ].
  - intros a h' E. cbn [after]. rewrite V. cbn [seen contents].
    destruct (tri_done _ _ _ _ _ _ _ _ _ (tri_setPassword any (fun _ => True) o (n, f, c0) _ _ _ any_ok C Cc Logic.I) S2 E) as (G & (s & Es & C' & ->) & S').
    assert (X : shows (OCred a) h' (SCred (n, Some s, c0))).
    { eapply (shows_at (OCred a) (GCred (n, Some s, c0)) K None); [ exact C' | exact Ck | exact Logic.I | ].
      eapply Sat_perm; [ | exact S' ]. cbn [fobj fst snd]. perm. }
    unfold cred_setPassword in E. unfold hbind at 1 in E. rewrite text_read in E. rewrite Es in E |- *. destruct s as [ | c1 s]; [ easy | ].
    eexists. split; [ reflexivity | exact X ].
  - intros h' E. cbn [after]. rewrite V. cbn [seen contents].
    unfold cred_setPassword in E. unfold hbind at 1 in E. rewrite text_read in E. destruct (text vs u) as [[ | c1 s] | ]; try reflexivity.
    now apply replaced_nothrow in E.
Qed.

Lemma VSetServer_ok : forall i u, careful p (VSetServer i u) -> outcome_ok (VSetServer i u).
Proof.
  intros i u Co. pose proof (value_kind i) as Kd. destruct (get i p) as [o | o | o | o | o | o | ] eqn:Ei; cbn in Kd.
  all: try (apply nothing_ok; cbn [hstep after]; [ now rewrite Ei | now destruct (value vs i) ]).
  all: focus_on i Ei; cbn [careful] in Co.
  - assert (Cc : cin (eval p u) (fbase_rest o v ++ R ++ fstore K) (text vs u)).
    { destruct (Cin u) as [(k & ->) | Cc].
      - cbn [eval text]. rewrite Ei, V. destruct k as [ | [ | k]]; [ congruence | | now destruct k ].
        cbn [getter seen contents field]. eapply ctext_cin; [ exact (cb_log _ _ C) | unfold fbase_rest; perm ].
      - eapply cin_perm; [ | apply (cin_app _ _ (fbase_rest o v) _ Cc) ]. perm. }
    assert (S2 : Sat h ((fbase o v ++ R ++ fstore K) ++ L)) by (eapply Sat_perm; [ | exact S ]; cbn [fobj]; perm).
    eapply (setter_ok _ _ OBase (base_setServerName o (eval p u)) i); [ cbn [hstep]; rewrite Ei; reflexivity | reflexivity | exact Co | easy | | ].
    + intros a h' E. cbn [after]. rewrite V. cbn [seen contents]. rewrite (checked_done _ _ _ _ _ E). eexists. split; [ reflexivity | ].
      destruct (tri_done _ _ _ _ _ _ _ _ _ (tri_setServerName any (fun _ => True) o v _ _ _ any_ok C Cc Logic.I) S2 E) as (G & (s & Es & _ & C' & ->) & S').
      rewrite Es. eapply (shows_at (OBase a) (GBase (mkGB (Some s) (gb_log v) (gb_resp v) (gb_cred v))) K None); [ exact C' | exact Ck | exact Logic.I | ].
      eapply Sat_perm; [ | exact S' ]. cbn [fobj]. perm.
    + intros h' E. cbn [after]. rewrite V. cbn [seen contents]. rewrite (checked_throw _ _ _ _ (replaced_nothrow _ _ _ _ _) E). reflexivity.
  - assert (Cc : cin (eval p u) (fbase_rest (po_base o) v ++ R ++ fstore K) (text vs u)).
    { destruct (Cin u) as [(k & ->) | Cc].
      - cbn [eval text]. rewrite Ei, V. destruct k as [ | [ | k]]; [ congruence | | now destruct k ].
        cbn [getter seen contents field]. eapply ctext_cin; [ exact (cb_log _ _ C) | unfold fbase_rest; perm ].
      - eapply cin_perm; [ | apply (cin_app _ _ (fbase_rest (po_base o) v) _ Cc) ]. perm. }
    assert (S2 : Sat h ((fbase (po_base o) v ++ R ++ fstore K) ++ L)) by (eapply Sat_perm; [ | exact S ]; cbn [fobj]; perm).
    eapply (setter_ok _ _ OCpp (b <~ base_setServerName (po_base o) (eval p u) ;; hret (mkPO b (po_cred o))) i);
      [ cbn [hstep]; rewrite Ei; reflexivity | reflexivity | exact Co | easy | | ].
    + intros a h' E. unfold hbind at 1 in E. destruct (base_setServerName (po_base o) (eval p u) h) as [[b | | | | | ] h1] eqn:E1; try easy. cbn in E.
      injection E as <- <-. cbn [after]. rewrite V. cbn [seen contents]. rewrite (checked_done _ _ _ _ _ E1). eexists. split; [ reflexivity | ].
      destruct (tri_done _ _ _ _ _ _ _ _ _ (tri_setServerName any (fun _ => True) (po_base o) v _ _ _ any_ok C Cc Logic.I) S2 E1) as (G & (s & Es & _ & C' & ->) & S').
      rewrite Es. eapply (shows_at (OCpp (mkPO b (po_cred o))) (GBase (mkGB (Some s) (gb_log v) (gb_resp v) (gb_cred v))) K); [ exact C' | exact Ck | exact W | ].
      eapply Sat_perm; [ | exact S' ]. cbn [fobj po_base]. perm.
    + intros h' E. unfold hbind at 1 in E. destruct (base_setServerName (po_base o) (eval p u) h) as [[b | | | | | ] h1] eqn:E1; try easy.
      cbn [after]. rewrite V. cbn [seen contents]. rewrite (checked_throw _ _ _ _ (replaced_nothrow _ _ _ _ _) E1). reflexivity.
Qed.

Lemma VTalk_ok : forall i t, outcome_ok (VTalk i t).
Proof.
  intros i t. pose proof (value_kind i) as Kd. destruct (get i p) as [o | o | o | o | o | o | ] eqn:Ei; cbn in Kd.
  all: try (apply nothing_ok; cbn [hstep after]; [ now rewrite Ei | now destruct (value vs i) ]).
  all: focus_on i Ei.
  - eapply (put_ok _ _ OBase (base_talk o t) i (contents (seen (OBase o) (GBase (mkGB (gb_server v) (talked t (gb_log v)) (gb_resp v) (gb_cred v))) w)) any); [ cbn [hstep]; rewrite Ei; reflexivity | reflexivity | exact Logic.I | easy
      | cbn [after]; rewrite V; reflexivity | exact S | exact (tri_base_talk any nothrow o v t any_nulls C) | ].
    intros a G h' (g' & X & C' & -> & E1 & E2 & E3 & _) S'. cbn [seen contents gb_server gb_log gb_cred].
    rewrite <- E1, <- E2, <- E3.
    eapply (shows_at (OBase a) (GBase g') K None); [ exact C' | exact Ck | exact Logic.I | ].
    eapply Sat_perm; [ | exact S' ]. cbn [fobj]. perm.
  - assert (T : tri any nothrow (fobj (OCpp o, GBase v)) (b <~ base_talk (po_base o) t ;; hret (mkPO b (po_cred o)))
      (fun a G => po_cred a = po_cred o /\ exists g' X, cbase (po_base a) g' /\ G = fbase (po_base a) g' ++ X /\ gb_server g' = gb_server v /\
        gb_log g' = talked t (gb_log v))).
    { eapply tri_wrap; [ exact (tri_base_talk any nothrow (po_base o) v t any_nulls C) | ].
      intros b G (g' & X & C' & -> & E1 & E2 & _). eexists. split; [ apply Permutation_refl | ]. split; [ reflexivity | ]. exists g', X. split; [ exact C' | now repeat split ]. }
    eapply (put_ok _ _ OCpp _ i (contents (seen (OCpp o) (GBase (mkGB (gb_server v) (talked t (gb_log v)) (gb_resp v) (gb_cred v))) w)) any);
      [ cbn [hstep]; rewrite Ei; reflexivity | reflexivity | exact Logic.I | easy
      | cbn [after]; rewrite V; reflexivity | exact S | exact T | ].
    intros a G h' (Ep & g' & X & C' & -> & E1 & E2) S'. cbn [seen contents gb_server gb_log gb_cred].
    rewrite <- E1, <- E2.
    eapply (shows_at (OCpp a) (GBase g') K); [ exact C' | exact Ck | cbn [cred_seen] in *; rewrite Ep; exact W | ].
    eapply Sat_perm; [ | exact S' ]. cbn [fobj]. perm.
Qed.

Lemma set_gone : forall q i, get i q = OGone -> set i OGone q = q.
Proof.
  unfold get. induction q as [ | x q IH]; intros [ | i] E; cbn in *; try easy; [ now subst | ]. now rewrite IH.
Qed.
Lemma VDestroy_ok : forall i, outcome_ok (VDestroy i).
Proof.
  intros i. destruct (get i p) as [o | o | o | o | o | o | ] eqn:Ei; cycle -1.
  { unfold outcome_ok. cbn [hstep after]. rewrite Ei. cbn [hret]. unfold hret. rewrite <- (set_gone p i Ei).
    apply holds_set; [ exact Hp | apply gone_shows ]. }
  all: assert (D : forall A (m : H A) U F R Q, hstep p (VDestroy i) = put1 p i (m ;;~ hret OGone) -> tri U nothrow F m Q -> Sat h (F ++ R) ->
    outcome_ok (VDestroy i)).
  1, 3, 5, 7, 9, 11: intros A m U F R Q Eo T S; unfold outcome_ok; cbn [is_ctor after];
      destruct (hstep p (VDestroy i) h) as [[p' | | u | | | ] h'] eqn:E; try exact Logic.I;
      [ pose proof E as E'; rewrite Eo in E'; unfold put1, hbind, hret in E'; destruct (m h) as [[x | | | | | ] h1]; try easy;
        injection E' as E1 _; eapply (put_kept (VDestroy i)); [ exact Logic.I | exact E | exact (eq_sym E1) | easy | apply gone_shows ]
      | rewrite Eo in E; unfold put1, hbind, hret in E; destruct (m h) as [[x | | | | | ] h1] eqn:Em; try easy;
        exfalso; exact (tri_nothrow _ _ _ _ _ _ _ T S Em) ].
  all: focus_on i Ei; eapply D; [ cbn [hstep]; rewrite Ei; reflexivity | | exact S ].
  - exact (tri_addr_destroy any nothrow o v C).
  - exact (tri_att_destroy any nothrow o v C).
  - exact (tri_cred_destroy any nothrow o v C).
  - exact (tri_msg_destroy any nothrow o v C).
  - exact (tri_base_destroy any nothrow o v C).
  - exact (tri_base_destroy any nothrow (po_base o) v C).
Qed.

(** ** New messages *)

Lemma addr_array_value : forall a, match addr_array p a with Some _ => exists q, array as_addr vs a = Some q | None => array as_addr vs a = None end.
Proof.
  assert (T : forall ks, match addrs_of p ks with Some _ => exists q, collect as_addr (map (value vs) ks) = Some q
                                             | None => collect as_addr (map (value vs) ks) = None end).
  { induction ks as [ | k ks IH]; cbn [addrs_of map collect]; [ now exists [] | ]. pose proof (value_kind k) as Kd.
    destruct (get k p) as [o | o | o | o | o | o | ]; cbn in Kd; destruct (value vs k) as [ | | | | [ | ] ? ? ? | ]; try easy. cbn [as_addr].
    destruct (addrs_of p ks); [ destruct IH as (q & ->); now eexists | now rewrite IH ]. }
  intros [n | ks]; unfold array; cbn [addr_array members map collect]; [ now exists [] | ].
  specialize (T ks). now destruct (addrs_of p ks).
Qed.
Lemma att_array_value : forall a, match att_array p a with Some _ => exists q, array as_att vs a = Some q | None => array as_att vs a = None end.
Proof.
  assert (T : forall ks, match atts_of p ks with Some _ => exists q, collect as_att (map (value vs) ks) = Some q
                                             | None => collect as_att (map (value vs) ks) = None end).
  { induction ks as [ | k ks IH]; cbn [atts_of map collect]; [ now exists [] | ]. pose proof (value_kind k) as Kd.
    destruct (get k p) as [o | o | o | o | o | o | ]; cbn in Kd; destruct (value vs k) as [ | | | | [ | ] ? ? ? | ]; try easy. cbn [as_att].
    destruct (atts_of p ks); [ destruct IH as (q & ->); now eexists | now rewrite IH ]. }
  intros [n | ks]; unfold array; cbn [att_array members map collect]; [ now exists [] | ].
  specialize (T ks). now destruct (atts_of p ks).
Qed.
Lemma observed_value : forall k v, fst (observe (get k p) h) = Done v -> value vs k = contents v.
Proof. intros k v E. destruct (holds_get _ _ _ k Hp) as (v' & E' & <-). rewrite E in E'. now injection E' as <-. Qed.
Lemma array_addr : forall a q, Forall2 (fun k x => fst (observe (get k p) h) = Done (SAddr x)) (members a) q -> array as_addr vs a = Some q.
Proof.
  intros a q F. unfold array. induction F as [ | k x ks q E F IH]; cbn [map collect]; [ reflexivity | ].
  rewrite (observed_value _ _ E). cbn [contents as_addr]. now rewrite IH.
Qed.
Lemma array_att : forall a q, Forall2 (fun k x => fst (observe (get k p) h) = Done (SAtt x)) (members a) q -> array as_att vs a = Some q.
Proof.
  intros a q F. unfold array. induction F as [ | k x ks q E F IH]; cbn [map collect]; [ reflexivity | ].
  rewrite (observed_value _ _ E). cbn [contents as_att]. now rewrite IH.
Qed.

Lemma VMsg_nothrow : forall f t c d s b a h', careful p (VMsg f t c d s b a) -> hstep p (VMsg f t c d s b a) h <> (Throw, h').
Proof.
  intros f t c d s b a h' (Ps & Pb) Eo. pose proof (run_in_order l Ca) as T. rewrite El in T.
  destruct T as (ps & K & L & Ep & (Gd & S) & _). rewrite Ep in *. cbn [hstep] in Eo.
  destruct (get f (map fst ps)) as [fo | | | | | | ] eqn:Ef; try easy.
  destruct (addr_array (map fst ps) t) as [t' | ] eqn:Et; [ | easy ].
  destruct (addr_array (map fst ps) c) as [c' | ] eqn:Ec; [ | easy ].
  destruct (addr_array (map fst ps) d) as [d' | ] eqn:Ed; [ | easy ].
  destruct (att_array (map fst ps) a) as [a' | ] eqn:Ea; [ | easy ].
  destruct (eval_cin ps K s Gd) as (v1 & Cs), (eval_cin ps K b Gd) as (vb & Cb).
  assert (Wf : exists v, within caddr faddr (F0 ps K) fo v).
  { apply (addrs_within ps K [f] [fo] Gd); [ cbn; now rewrite Ef | now left ]. }
  destruct Wf as (vf & Wf).
  pose proof (tri_msg_new any nothrow _ fo vf t' c' d' a' _ _ v1 vb any_nulls Wf
    (addr_array_within _ _ _ _ Gd Et) (addr_array_within _ _ _ _ Gd Ec) (addr_array_within _ _ _ _ Gd Ed)
    (att_array_within _ _ _ _ Gd Ea) Cs (present_cin _ _ _ _ Ps Cs) Cb (present_cin _ _ _ _ Pb Cb)) as T.
  unfold push, wrap, hbind, hret in Eo. destruct (msg_new _ _ _ _ _ _ _ h) as [[m | | | | | ] h1] eqn:Em; try easy.
  exact (tri_nothrow _ _ _ _ _ _ _ T S Em).
Qed.

Lemma VMsg_ok : forall f t c d s b a, careful p (VMsg f t c d s b a) -> outcome_ok (VMsg f t c d s b a).
Proof.
  intros f t c d s b a Co. unfold outcome_ok.
  destruct (hstep p (VMsg f t c d s b a) h) as [[p' | | u | | | ] h'] eqn:E; try exact Logic.I; [ | exfalso; now apply VMsg_nothrow in E ].
  destruct (Nat.eq_dec (length p') (length p)) as [Lp | Lp].
  - pose proof E as E'. cbn [hstep] in E'. cbn [after]. pose proof (value_kind f) as Kf.
    assert (Np : forall m, p' <> p ++ [OMsg m]) by (intros m ->; rewrite app_length in Lp; cbn in Lp; lia).
    pose proof (addr_array_value t) as Vt. pose proof (addr_array_value c) as Vc. pose proof (addr_array_value d) as Vd. pose proof (att_array_value a) as Va.
    assert (X : (p', h') = (p, h) /\ match as_addr (value vs f), array as_addr vs t, array as_addr vs c, array as_addr vs d, array as_att vs a with
                     | Some _, Some _, Some _, Some _, Some _ => False | _, _, _, _, _ => True end).
    { destruct (get f p) as [fo | fo | fo | fo | fo | fo | ]; cbn in Kf; destruct (value vs f) as [ | | | | [ | ] ? ? ? | ]; try easy; cbn [as_addr].
      all: try (unfold hret in E'; injection E' as <- <-; now split).
      destruct (addr_array p t); [ | rewrite Vt; unfold hret in E'; injection E' as <- <-; now split ]. destruct Vt as (? & ->).
      destruct (addr_array p c); [ | rewrite Vc; unfold hret in E'; injection E' as <- <-; now split ]. destruct Vc as (? & ->).
      destruct (addr_array p d); [ | rewrite Vd; unfold hret in E'; injection E' as <- <-; now split ]. destruct Vd as (? & ->).
      destruct (att_array p a); [ | rewrite Va; unfold hret in E'; injection E' as <- <-; now split ].
      apply push_done in E' as (m & _ & Ep). now apply Np in Ep. }
    destruct X as ([= -> ->] & X).
    repeat match goal with |- context [match ?d with Some _ => _ | None => vs end] => destruct d; try exact Hp end. now destruct X.
  - destruct (new_shows l p h f t c d s b a p' h' Ca El Co E) as (m & v & -> & Rm & Of & O1 & N1 & O2 & N2 & O3 & N3 & O4 & N4 & Rs & Rb).
    { intros ->. now apply Lp. }
    cbn [after]. rewrite (observed_value _ _ Of). cbn [contents as_addr].
    rewrite (array_addr _ _ O1), (array_addr _ _ O2), (array_addr _ _ O3), (array_att _ _ O4).
    rewrite text_read in Rs, Rb. injection Rs as ->. injection Rb as ->. rewrite <- N1, <- N2, <- N3, <- N4.
    eapply (push_kept (VMsg f t c d s b a)); [ exact Co | exact E | reflexivity | easy | ].
    eapply shows_intro; [ | refine (eq_refl (contents (SMsg v))) ].
    cbn [observe]. unfold hbind. destruct (read_msg m h') as [r h2]. cbn in Rm. now subst r.
Qed.

(** ** setCredentials *)

Definition quiet {A} (m : H A) : Prop := forall hp h', m hp <> (Throw, h').
Definition pure {A} (m : H A) : Prop := forall hp, snd (m hp) = hp.

Lemma quiet_bind : forall A C (m : H A) (f : A -> H C), quiet m -> (forall a, quiet (f a)) -> quiet (hbind m f).
Proof.
  intros A C m f Qm Qf hp h' E. unfold hbind in E. destruct (m hp) as [[a | | | | | ] h1] eqn:Em; try easy; [ now apply Qf in E | now apply Qm in Em ].
Qed.
Lemma quiet_ret : forall A (a : A), quiet (hret a).
Proof. easy. Qed.
Lemma quiet_get : forall q r, quiet (h_get q r).
Proof. intros q [a | ] hp h'; cbn; [ now destruct (lookup a (h_live hp)) | easy ]. Qed.
Lemma quiet_text : forall q r, quiet (h_text q r).
Proof. intros q r. apply quiet_bind; [ apply quiet_get | ]. now intros []. Qed.
Lemma quiet_get_cred : forall r, quiet (get_cred r).
Proof. intros r. apply quiet_bind; [ apply quiet_get | ]. now intros []. Qed.
Lemma quiet_copy : forall o, quiet (cred_copy o).
Proof. intros o. unfold cred_copy. repeat (apply quiet_bind; [ first [ apply quiet_text | easy ] | intros ? ]). easy. Qed.
Lemma quiet_destroy : forall o, quiet (cred_destroy o).
Proof. intros o. apply quiet_bind; [ intros ? ?; apply h_del_nothrow | ]. intros _ ? ?. apply h_del_nothrow. Qed.
Lemma quiet_delete : forall r, quiet (delete_cred r).
Proof.
  intros [a | ]; [ | easy ]. unfold delete_cred. apply quiet_bind; [ intros hp h'; cbn; now destruct (lookup a (h_live hp)) | intros _ ].
  apply quiet_bind; [ apply quiet_get_cred | intros o ]. apply quiet_bind; [ apply quiet_destroy | ]. intros _ ? ?. apply h_del_nothrow.
Qed.
Lemma quiet_new_cred : forall src, quiet src -> quiet (new_cred (o <~ src ;; cred_copy o)).
Proof. intros src Q. apply quiet_bind; [ apply quiet_bind; [ exact Q | apply quiet_copy ] | easy ]. Qed.
Lemma quiet_base_set : forall o src, quiet src -> quiet (base_setCredentials o src).
Proof.
  intros o src Q. apply quiet_bind; [ apply quiet_delete | intros _ ]. apply quiet_bind; [ now apply quiet_new_cred | easy ].
Qed.
Lemma quiet_source : forall c src, cred_source p c = Some src -> quiet src.
Proof.
  intros [j | j] src E; cbn in E; destruct (get j p); try easy; injection E as <-; [ easy | apply quiet_get_cred | apply quiet_get_cred ].
Qed.

Lemma pure_get : forall q r, pure (h_get q r).
Proof. intros q [a | ] hp; cbn; [ now destruct (lookup a (h_live hp)) | easy ]. Qed.
Lemma pure_bind : forall A C (m : H A) (f : A -> H C), pure m -> (forall a, pure (f a)) -> pure (hbind m f).
Proof.
  intros A C m f Pm Pf hp. unfold hbind. specialize (Pm hp). destruct (m hp) as [[a | | | | | ] h1]; cbn in Pm; subst h1; try easy. apply Pf.
Qed.
Lemma pure_text : forall q r, pure (h_text q r).
Proof. intros q r. apply pure_bind; [ apply pure_get | ]. now intros []. Qed.
Lemma pure_peek : forall q, pure (peek q).
Proof. intros [a | ]; [ | easy ]. apply pure_bind; [ apply pure_text | easy ]. Qed.
Lemma pure_get_cred : forall r, pure (get_cred r).
Proof. intros r. apply pure_bind; [ apply pure_get | ]. now intros []. Qed.
Lemma pure_source : forall c src, cred_source p c = Some src -> pure src.
Proof.
  intros [j | j] src E; cbn in E; destruct (get j p); try easy; injection E as <-; [ easy | apply pure_get_cred | apply pure_get_cred ].
Qed.

Lemma given_read : forall c src a v, cred_source p c = Some src -> fst (src h) = Done a -> fst (read_cred a h) = Done v -> given vs c = Some v.
Proof.
  intros c src a v Es Ea Ev. destruct c as [j | j]; cbn [cred_source given] in *.
  - destruct (get j p) as [ | | o | | | | ] eqn:Ej; try easy. injection Es as <-. injection Ea as ->.
    rewrite (observed_value j (SCred v)); [ reflexivity | ]. rewrite Ej. cbn [observe]. unfold hbind.
    destruct (read_cred a h) as [r h1]. cbn in Ev. now subst r.
  - assert (Oc : forall q, fst (get_cred q h) = Done a -> fst (observe_cred q h) = Done (Some v)).
    { intros [b | ] Eb; [ | easy ]. unfold observe_cred, hbind. pose proof (pure_get_cred (Some b) h) as Pg.
      destruct (get_cred (Some b) h) as [r h1]. cbn in Eb, Pg. subst r h1. destruct (read_cred a h) as [r h1]. cbn in Ev. now subst r. }
    assert (Cl : forall k q1 q2 q s, fst ((s <~ peek q1 ;; t <~ peek q2 ;; x <~ observe_cred q ;; hret (SClient k s t x)) h) = Done s ->
      fst (get_cred q h) = Done a -> exists s1 s2, s = SClient k s1 s2 (Some v)).
    { intros k q1 q2 q s E Eg. unfold hbind at 1 in E. pose proof (pure_peek q1 h) as P1. destruct (peek q1 h) as [[x1 | | | | | ] h1]; try easy. cbn in P1. subst h1.
      unfold hbind at 1 in E. pose proof (pure_peek q2 h) as P2. destruct (peek q2 h) as [[x2 | | | | | ] h1]; try easy. cbn in P2. subst h1.
      specialize (Oc q Eg). unfold hbind in E. destruct (observe_cred q h) as [r h1]. cbn in Oc. subst r. cbn in E. injection E as <-. now exists x1, x2. }
    destruct (holds_get _ _ _ j Hp) as (w & Ow & <-).
    destruct (get j p) as [ | | | | o | o | ] eqn:Ej; try easy; injection Es as <-; cbn [observe] in Ow;
      destruct (Cl _ _ _ _ _ Ow Ea) as (s1 & s2 & ->); reflexivity.
Qed.

Lemma read_cred_at : forall o v hp X, ccred o v -> Sat hp (fcred o v ++ X) -> fst (read_cred o hp) = Done v.
Proof. intros o v hp X C S. eapply tri_result; [ apply (tri_read_cred never nothrow o v C) | exact S ]. Qed.

Lemma texts_read : forall o u w, fst (h_text PArg (co_user o) h) = Done u -> fst (h_text PArg (co_pass o) h) = Done w ->
  fst (read_cred o h) = Done (Some u, Some w, co_method o).
Proof.
  intros o u w Eu Ew. unfold read_cred.
  assert (T : forall q x, fst (h_text PArg q h) = Done x -> peek q h = (Done (Some x), h)).
  { intros [a | ] x E; [ | easy ]. cbn [peek]. unfold hbind. pose proof (pure_text PArg (Some a) h) as Pt. destruct (h_text PArg (Some a) h) as [r h1].
    cbn in E, Pt. now subst. }
  unfold hbind. now rewrite (T _ _ Eu), (T _ _ Ew).
Qed.

Lemma credential_cstr : forall u w, credential_new (Some (cstr u)) (Some (cstr w)) = credential_new (Some u) (Some w).
Proof. intros u w. unfold credential_new, null_or_blank. now rewrite !cstr_cstr. Qed.

(** What the first half of the string API's setCredentials does. *)
Lemma cpp_set_shape : forall o c src r h', cred_source p c = Some src -> cpp_setCredentials o src h = (r, h') ->
  match r with
  | Done _ => exists v, given vs c = Some v /\ accepted true v = true
  | Throw => match given vs c with Some v => accepted true v = false | None => True end
  | _ => True
  end.
Proof.
  intros o c src r h' Es E. unfold cpp_setCredentials in E. unfold hbind at 1 in E.
  pose proof (pure_source c src Es h) as Ps. pose proof (quiet_source c src Es h) as Qs.
  destruct (src h) as [[a | | | | | ] h1] eqn:E1; try (now injection E as <- _); cbn in Ps; subst h1; [ | now destruct (Qs h) ].
  unfold hbind at 1 in E. pose proof (pure_text PArg (co_user a) h) as Pu. pose proof (quiet_text PArg (co_user a) h) as Qu.
  destruct (h_text PArg (co_user a) h) as [[u | | | | | ] h1] eqn:E2; try (now injection E as <- _); cbn in Pu; subst h1; [ | now destruct (Qu h) ].
  unfold hbind at 1 in E. pose proof (pure_text PArg (co_pass a) h) as Pw. pose proof (quiet_text PArg (co_pass a) h) as Qw.
  destruct (h_text PArg (co_pass a) h) as [[w | | | | | ] h1] eqn:E3; try (now injection E as <- _); cbn in Pw; subst h1; [ | now destruct (Qw h) ].
  assert (Gv : given vs c = Some (Some u, Some w, co_method a)).
  { eapply given_read; [ exact Es | rewrite E1; reflexivity | ]. apply texts_read; [ now rewrite E2 | now rewrite E3 ]. }
  rewrite Gv.
  unfold hbind at 1 in E. unfold cred_new in E. cbn [c_read] in E. unfold hbind at 1, hret at 1 in E. unfold hbind at 1, hret at 1 in E.
  unfold hbind at 1, hlift at 1 in E.
  destruct (credential_new (Some (cstr u)) (Some (cstr w))) as [v | | | | | ] eqn:Ec; try (now injection E as <- _).
  - cbn [h_dup] in E. unfold hbind at 1 in E. destruct (h_dup (cr_user v) h) as [[q1 | | | | | ] h1] eqn:D1; try easy.
    unfold hbind at 1 in E. destruct (h_dup (cr_pass v) h1) as [[q2 | | | | | ] h2] eqn:D2; try easy. unfold hret at 1 in E.
    destruct r; try easy; [ eexists; split; [ reflexivity | ]; unfold accepted; now rewrite <- credential_cstr, Ec | exfalso ].
    revert E. apply quiet_bind; [ now apply quiet_base_set | intros b ]. apply quiet_bind; [ apply quiet_destroy | intros _ ].
    apply quiet_bind; [ apply quiet_delete | intros _ ]. apply quiet_bind; [ | easy ]. apply quiet_new_cred. exact (quiet_source c src Es).
  - injection E as <- _. unfold accepted. now rewrite <- credential_cstr, Ec.
Qed.

Lemma VSetCredentials_ok : forall i c, careful p (VSetCredentials i c) -> outcome_ok (VSetCredentials i c).
Proof.
  intros i c Co. destruct (cred_source p c) as [src | ] eqn:Es.
  2:{ assert (Gn : given vs c = None).
      { destruct c as [j | j]; cbn in *; pose proof (value_kind j) as Kd; destruct (get j p); try easy; cbn in Kd; now destruct (value vs j) as [ | | | | [ | ] ? ? ? | ]. }
      apply nothing_ok; cbn [hstep after]; [ rewrite Es; now destruct (get i p) | rewrite Gn; now destruct (value vs i) ]. }
  pose proof Co as (Nc & Cp). pose proof (value_kind i) as Kd.
  destruct (get i p) as [o | o | o | o | o | o | ] eqn:Ei; cbn in Kd.
  all: try (apply nothing_ok; cbn [hstep after]; [ now rewrite Ei | now destruct (value vs i) ]).
  all: pose proof (run_in_order l Ca) as T; rewrite El in T; destruct T as (ps & K & L & Ep & (Gd & S) & _).
  all: pose proof Es as Es'; rewrite Ep in Es'; try rewrite Ep in Cp; pose proof Ei as Ei'; rewrite Ep in Ei'.
  all: destruct (focus1 ps K i _ Gd Ei') as (g & R & C & P & Fo & _); [ discriminate | ].
  all: destruct g as [v | v | v | g | g | ]; cbn in C; try easy; cbn [fobj] in P; pose proof (perm_focus ps K _ _ P) as P0.
  all: assert (Ni : forall z, get i (map fst ps) <> OCred z) by (rewrite Ei'; discriminate).
  all: pose proof (gd_store _ _ Gd) as Ck.
  - pose proof (source_spec ps K K i R c src Gd Fo (others_held ps K i Gd) Ck Nc Ni Es') as Tsrc.
    assert (Vi : value vs i = SClient false (gb_server g) (gb_log g) (option_map snd (gb_cred g))).
    { eapply shows_unique; [ pose proof (holds_get _ _ _ i Hp) as Hv; rewrite Ei in Hv; exact Hv | ].
      eapply (shows_at (OBase o) (GBase g) K None h (R ++ L)); [ exact C | exact Ck | exact Logic.I | ].
      eapply Sat_perm; [ | exact S ]. cbn [fobj]. rewrite P0. perm. }
    assert (S2 : Sat h ((fbase o g ++ R ++ fstore K) ++ L)) by (eapply Sat_perm; [ | exact S ]; rewrite P0; perm).
    eapply (setter_ok _ _ OBase (base_setCredentials o src) i); [ cbn [hstep]; rewrite Ei, Es; reflexivity | reflexivity | exact Co | easy | | ].
    + intros a h' E.
      destruct (tri_done _ _ _ _ _ _ _ _ _ (tri_base_setCredentials U0 nothrow o g (R ++ fstore K) src _ nulls0 C (Tsrc _)
        ltac:(intros x G (-> & (v & X & Cx & PX) & _); exists v, X; now split)) S2 E)
        as (G & (gc & C' & (x & v & (_ & _ & Rx) & Cx & Ev & _ & X & PX) & ->) & S').
      assert (Gv : given vs c = Some v).
      { eapply given_read; [ exact Es | apply (Rx h (fbase o g ++ L)) | apply (read_cred_at x v h (X ++ fbase o g ++ L) Cx) ].
        - eapply Sat_perm; [ | exact S2 ]. perm.
        - eapply Sat_perm; [ | exact S2 ]. rewrite PX. perm. }
      cbn [after]. rewrite Vi, Gv. cbn [accepted]. eexists. split; [ reflexivity | ].
      rewrite <- Ev.
      eapply (shows_at (OBase a) (GBase (mkGB (gb_server g) (gb_log g) (gb_resp g) (Some gc))) K None); [ exact C' | exact Ck | exact Logic.I | ].
      eapply Sat_perm; [ | exact S' ]. cbn [fobj]. perm.
    + intros h' E. exfalso. revert E. apply quiet_base_set. exact (quiet_source c src Es).
  - destruct (own_cred ps K i o Gd Ei' Cp) as (gc & K1 & Cc & Ck1 & PK & Ho & _).
    pose proof (source_spec ps K K1 i R c src Gd Fo Ho Ck1 Nc Ni Es') as Tsrc.
    assert (Vi : exists w, value vs i = SClient true (gb_server g) (gb_log g) w).
    { pose proof (get_held ps K i Gd) as Hh. rewrite Ei' in Hh. destruct (held_seen _ _ Hh) as (w & W). exists w.
      eapply shows_unique; [ pose proof (holds_get _ _ _ i Hp) as Hv; rewrite Ei in Hv; exact Hv | ].
      eapply (shows_at (OCpp o) (GBase g) K w h (R ++ L)); [ exact C | exact Ck | exact W | ].
      eapply Sat_perm; [ | exact S ]. cbn [fobj]. rewrite P0. perm. }
    destruct Vi as (w & Vi).
    assert (S2 : Sat h ((fbase (po_base o) g ++ fcp (po_cred o) gc ++ R ++ fstore K1) ++ L)) by (eapply Sat_perm; [ | exact S ]; rewrite P0, PK; perm).
    eapply (setter_ok _ _ OCpp (cpp_setCredentials o src) i); [ cbn [hstep]; rewrite Ei, Es; reflexivity | reflexivity | exact Co | easy | | ].
    + intros a h' E. pose proof (cpp_set_shape o c src _ _ Es E) as (v0 & G0 & A0).
      destruct (tri_done _ _ _ _ _ _ _ _ _ (tri_cpp_setCredentials o g gc (R ++ fstore K1) src _ C Cc Tsrc
        ltac:(intros x G (-> & (v & X & Cx & PX) & _); exists v, X; now split) (fun _ => True) (fun _ _ => Logic.I)) S2 E)
        as (G & (g' & k & C' & Ck' & -> & E1 & E2 & x & (_ & _ & Rx) & Cx & X & PX) & S').
      assert (Gv : given vs c = Some (snd k)).
      { eapply given_read; [ exact Es | apply (Rx h (fbase (po_base o) g ++ fcp (po_cred o) gc ++ L)) | apply (read_cred_at x (snd k) h (X ++ fbase (po_base o) g ++ fcp (po_cred o) gc ++ L) Cx) ].
        - eapply Sat_perm; [ | exact S2 ]. perm.
        - eapply Sat_perm; [ | exact S2 ]. rewrite PX. perm. }
      cbn [after]. rewrite Vi, Gv. rewrite Gv in G0. injection G0 as <-. rewrite A0. eexists. split; [ reflexivity | ].
      rewrite <- E1, <- E2. destruct (po_cred a) as [q | ] eqn:Eq; [ | easy ].
      eapply (shows_at (OCpp a) (GBase g') ((q, k) :: K1) (Some (snd k)));
        [ exact C' | constructor; [ cbn; now destruct k | exact Ck1 ] | cbn [cred_seen]; rewrite Eq; destruct k as [xo kv]; exists xo, kv; split; [ now left | reflexivity ] | ].
      eapply Sat_perm; [ | exact S' ]. cbn [fobj]. change (fstore ((q, k) :: K1)) with (fcp (Some q) (Some k) ++ fstore K1). perm.
    + intros h' E. pose proof (cpp_set_shape o c src _ _ Es E) as A0. cbn [after]. rewrite Vi. destruct (given vs c); [ now rewrite A0 | reflexivity ].
Qed.

Lemma step_ok : forall o, careful p o -> outcome_ok o.
Proof.
  intros [] Co.
  - apply VAddr_ok.
  - apply VAtt_ok.
  - apply VCred_ok.
  - apply VCred3_ok.
  - now apply VMsg_ok.
  - apply VBase_ok.
  - apply VCpp_ok.
  - apply VCopy_ok.
  - apply VMove_ok.
  - now apply VAssign_ok.
  - apply VMoveAssign_ok.
  - apply VSetContentId_ok.
  - now apply VSetUsername_ok.
  - now apply VSetPassword_ok.
  - apply VSetMethod_ok.
  - now apply VSetServer_ok.
  - now apply VSetCredentials_ok.
  - apply VTalk_ok.
  - apply VRead_ok.
  - apply VDestroy_ok.
Qed.

End ONE.

Theorem value_semantics : forall l p h, along careful l -> hexec l = (Done p, h) -> holds p h (values_after l).
Proof.
  intros l. induction l as [ | o l IH] using rev_ind; intros p h Ca E.
  - cbn in E. injection E as <- <-. constructor.
  - unfold hexec in E. rewrite run_app in E. pose proof (along_snoc _ _ _ Ca) as Cl.
    destruct (hrun l [] empty_heap) as [[q | | | | | ] hq] eqn:Eq; try easy.
    pose proof (IH q hq Cl Eq) as Hq. unfold values_after. rewrite fold_left_app. cbn [fold_left]. fold (values_after l).
    pose proof (step_ok l q hq (values_after l) Cl Eq Hq o (Ca l o [] q hq eq_refl Eq)) as T. unfold outcome_ok in T.
    cbn [hrun] in E. destruct (hstep q o hq) as [[q' | | | | | ] h'] eqn:Es; try easy; injection E as <- <-; exact T.
Qed.
