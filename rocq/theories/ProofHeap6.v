(** Ownership: histories of objects. *)

From Coq Require Import Ascii String List NArith ZArith Bool Arith Lia Permutation.
From Verif Require Import Base ModelUtil ModelBase64 ModelAddress ModelAttachment ModelMessage ModelHeap SpecHeap
  ProofText ProofHeap ProofHeap2 ProofHeap3 ProofHeap4 ProofHeap5.
Import ListNotations.
Open Scope nat_scope.

(** ** Objects and what stands behind them *)

Inductive gobj :=
| GAddr (v : vaddr) | GAtt (v : vatt) | GCred (v : vcred) | GMsg (g : gmsg) | GBase (g : gbase) | GGone.

Definition fobj (x : obj * gobj) : foot :=
  match x with
  | (OAddr o, GAddr v) => faddr o v
  | (OAtt o, GAtt v) => fatt o v
  | (OCred o, GCred v) => fcred o v
  | (OMsg o, GMsg g) => fmsg o g
  | (OBase o, GBase g) => fbase o g
  | (OCpp o, GBase g) => fbase (po_base o) g
  | _ => []
  end.
Definition cobj (x : obj * gobj) : Prop :=
  match x with
  | (OAddr o, GAddr v) => caddr o v
  | (OAtt o, GAtt v) => catt o v
  | (OCred o, GCred v) => ccred o v
  | (OMsg o, GMsg g) => cmsg o g
  | (OBase o, GBase g) => cbase o g
  | (OCpp o, GBase g) => cbase (po_base o) g
  | (OGone, GGone) => True
  | _ => False
  end.

Definition fpool (ps : list (obj * gobj)) : foot := flat_map fobj ps.

(** The credentials the cpp clients point to: they belong to nobody. *)
Definition store := list (nat * (cred_obj * vcred)).
Definition fstore (K : store) : foot := flat_map (fun x => fcp (Some (fst x)) (Some (snd x))) K.
Definition cstore (K : store) : Prop := Forall (fun x => ccred (fst (snd x)) (snd (snd x))) K.
Definition held (K : store) (o : obj) : Prop :=
  match o with
  | OCpp c => match po_cred c with None => True | Some a => exists g, In (a, g) K end
  | _ => True
  end.

Record good (ps : list (obj * gobj)) (K : store) : Prop := mkGood {
  gd_ok : Forall cobj ps;
  gd_store : cstore K;
  gd_held : Forall (held K) (map fst ps) }.

Lemma fpool_app : forall a b, fpool (a ++ b) = fpool a ++ fpool b.
Proof. intros. unfold fpool. apply flat_map_app. Qed.

Lemma fpool_mid : forall A x B, Permutation (fpool (A ++ x :: B)) (fobj x ++ fpool A ++ fpool B).
Proof.
  intros A x B. rewrite fpool_app. change (fpool (x :: B)) with (fobj x ++ fpool B).
  apply Permutation_app_swap_app.
Qed.

Lemma set_app : forall A x y B, set (length A) y (A ++ x :: B) = A ++ y :: B.
Proof. induction A as [ | a A IH]; intros x y B; [ reflexivity | ]. cbn. now rewrite IH. Qed.

Lemma get_split : forall (ps : list (obj * gobj)) i x, get i (map fst ps) = x -> x <> OGone ->
  exists A g B, ps = A ++ (x, g) :: B /\ length A = i.
Proof.
  induction ps as [ | [y gy] r IH]; intros [ | i] x G N; cbn in G; try congruence.
  - subst y. exists [], gy, r. now split.
  - destruct (IH i x G N) as (A & g & B & -> & <-). exists ((y, gy) :: A), g, B. now split.
Qed.

Lemma get_app_out : forall (A B : list (obj * gobj)) x j, j <> length A ->
  get j (map fst (A ++ x :: B)) <> OGone ->
  exists z, In z (A ++ B) /\ fst z = get j (map fst (A ++ x :: B)).
Proof.
  intros A B x j Hj N. unfold get in *. rewrite map_app in *. cbn [map] in *.
  destruct (Nat.lt_ge_cases j (length A)) as [L | L].
  - rewrite app_nth1 in * by now rewrite map_length.
    rewrite nth_indep with (d' := fst (OGone, GGone)) by now rewrite map_length.
    rewrite map_nth. eexists. split; [ | reflexivity ]. apply in_or_app. left. now apply nth_In.
  - rewrite app_nth2 in * by now rewrite map_length. rewrite map_length in *.
    destruct (j - length A) as [ | k] eqn:Ek; [ lia | ]. cbn [nth] in *.
    destruct (Nat.lt_ge_cases k (length B)) as [Lk | Lk].
    + rewrite nth_indep with (d' := fst (OGone, GGone)) by now rewrite map_length.
      rewrite map_nth. eexists. split; [ | reflexivity ]. apply in_or_app. right. now apply nth_In.
    + rewrite nth_overflow in N by now rewrite map_length. congruence.
Qed.

Lemma fpool_in : forall ps z, In z ps -> exists X, Permutation (fpool ps) (fobj z ++ X).
Proof.
  intros ps z I. apply in_split in I as (A & B & ->). eexists. apply fpool_mid.
Qed.

(** Apart from the objects in [T], everything is as before. *)
Definition kept (T : nat -> Prop) (ps ps' : list (obj * gobj)) : Prop :=
  forall k z, ~ T k -> nth_error ps k = Some z -> nth_error ps' k = Some z.

Lemma kept_mid : forall A x y B, kept (fun k => k = length A) (A ++ x :: B) (A ++ y :: B).
Proof.
  intros A x y B k z Nk E. destruct (Nat.lt_ge_cases k (length A)) as [L | L].
  - rewrite nth_error_app1 in * by exact L. exact E.
  - rewrite nth_error_app2 in * by exact L. destruct (k - length A) eqn:Ek; [ exfalso; lia | exact E ].
Qed.

Lemma kept_trans : forall (T1 T2 T : nat -> Prop) a b c, kept T1 a b -> kept T2 b c ->
  (forall k, T1 k -> T k) -> (forall k, T2 k -> T k) -> kept T a c.
Proof.
  intros T1 T2 T a b c K1 K2 I1 I2 k z Nk E. apply K2; [ intros t; now apply Nk, I2 | ].
  apply K1; [ intros t; now apply Nk, I1 | exact E ].
Qed.

(** Looking at one object of the program. *)
Lemma focus1 : forall ps K i x, good ps K -> get i (map fst ps) = x -> x <> OGone ->
  exists g R, cobj (x, g) /\ Permutation (fpool ps) (fobj (x, g) ++ R) /\
    (forall j, j <> i -> get j (map fst ps) <> OGone ->
       exists gz X, cobj (get j (map fst ps), gz) /\ Permutation R (fobj (get j (map fst ps), gz) ++ X)) /\
    (forall y gy K', cobj (y, gy) -> cstore K' -> held K' y ->
       (forall j c, j <> i -> get j (map fst ps) = OCpp c -> held K' (OCpp c)) ->
       exists ps', set i y (map fst ps) = map fst ps' /\ good ps' K' /\
         Permutation (fobj (y, gy) ++ R) (fpool ps') /\ kept (fun k => k = i) ps ps').
Proof.
  intros ps K i x [Ok Ks Kh] G N. destruct (get_split _ _ _ G N) as (A & g & B & -> & Li).
  apply Forall_app in Ok as Ok'. destruct Ok' as (OkA & OkB). pose proof (Forall_inv OkB) as Cx. pose proof (Forall_inv_tail OkB) as OkB'. subst i.
  exists g, (fpool A ++ fpool B). split; [ exact Cx | ]. split; [ apply fpool_mid | ]. split.
  - intros j Nj Nz. destruct (get_app_out A B _ j Nj Nz) as ([z gz] & Iz & Ez). cbn in Ez. rewrite <- Ez.
    exists gz. destruct (fpool_in _ _ Iz) as (X & PX). exists X. split.
    + apply in_app_or in Iz as [Iz | Iz]; [ exact (proj1 (Forall_forall _ _) OkA _ Iz) | exact (proj1 (Forall_forall _ _) OkB' _ Iz) ].
    + rewrite <- fpool_app. exact PX.
  - intros y gy K' Cy Ck Hy Ho. exists (A ++ (y, gy) :: B). split; [ | split ].
    + rewrite !map_app. cbn [map fst]. rewrite <- (map_length fst A). apply set_app.
    + constructor; [ apply Forall_app; split; [ exact OkA | now constructor ] | exact Ck | ].
      rewrite map_app. apply Forall_app. cbn [map fst].
      assert (H : forall j z, j <> length A -> get j (map fst (A ++ (x, g) :: B)) = z -> held K' z).
      { intros j z Nj Ez. destruct z; try exact Logic.I. exact (Ho j _ Nj Ez). }
      split; [ | constructor; [ exact Hy | ] ]; apply Forall_forall; intros z Iz.
      * apply in_map_iff in Iz as ([z' gz] & <- & Iz). apply In_nth with (d := (OGone, GGone)) in Iz as (k & Lk & Ek).
        apply (H k); [ lia | ]. unfold get at 1. rewrite map_app, app_nth1 by now rewrite map_length.
        rewrite nth_indep with (d' := fst (OGone, GGone)) by now rewrite map_length. now rewrite map_nth, Ek.
      * apply in_map_iff in Iz as ([z' gz] & <- & Iz). apply In_nth with (d := (OGone, GGone)) in Iz as (k & Lk & Ek).
        apply (H (length A + S k)); [ lia | ]. unfold get at 1. rewrite map_app, app_nth2 by (rewrite map_length; lia).
        rewrite map_length. replace (length A + S k - length A) with (S k) by lia. cbn [map nth fst].
        rewrite nth_indep with (d' := fst (OGone, GGone)) by now rewrite map_length. now rewrite map_nth, Ek.
    + split; [ symmetry; apply fpool_mid | apply kept_mid ].
Qed.

Lemma set_app_l : forall A B i x, i < length A -> set i x (A ++ B) = set i x A ++ B.
Proof.
  induction A as [ | a A IH]; intros B [ | i] x L; cbn in *; try lia; [ reflexivity | ].
  now rewrite IH by lia.
Qed.
Lemma set_app_r : forall A B i x, set (length A + i) x (A ++ B) = A ++ set i x B.
Proof. induction A as [ | a A IH]; intros B i x; cbn; [ reflexivity | ]. now rewrite IH. Qed.

Lemma good_put : forall A x gx B y gy K, good (A ++ (x, gx) :: B) K -> cobj (y, gy) -> held K y ->
  good (A ++ (y, gy) :: B) K.
Proof.
  intros A x gx B y gy K [O S Hh] C Hy. constructor; [ | exact S | ].
  - apply Forall_app in O as (O1 & O2). apply Forall_app. split; [ exact O1 | ].
    constructor; [ exact C | exact (Forall_inv_tail O2) ].
  - rewrite map_app in *. apply Forall_app in Hh as (O1 & O2). apply Forall_app. split; [ exact O1 | ].
    cbn [map fst] in *. constructor; [ exact Hy | exact (Forall_inv_tail O2) ].
Qed.

Lemma good_in : forall ps K z, good ps K -> In z ps -> cobj z.
Proof. intros ps K z [O _ _] I. exact (proj1 (Forall_forall _ _) O _ I). Qed.

(** Looking at two objects. *)
Lemma focus2 : forall ps K i j x y, good ps K -> i <> j ->
  get i (map fst ps) = x -> x <> OGone -> get j (map fst ps) = y -> y <> OGone ->
  exists gx gy R, cobj (x, gx) /\ cobj (y, gy) /\
    Permutation (fpool ps) (fobj (x, gx) ++ fobj (y, gy) ++ R) /\
    (forall a ga b gb, cobj (a, ga) -> cobj (b, gb) -> held K a -> held K b ->
       exists ps', set j b (set i a (map fst ps)) = map fst ps' /\ good ps' K /\
         Permutation (fobj (a, ga) ++ fobj (b, gb) ++ R) (fpool ps') /\ kept (fun k => k = i \/ k = j) ps ps').
Proof.
  intros ps K i j x y Gd Nij Gx Nx Gy Ny.
  destruct (get_split _ _ _ Gx Nx) as (A & gx & B & -> & <-).
  unfold get in Gy. rewrite map_app in Gy. cbn [map fst] in Gy.
  destruct (Nat.lt_ge_cases j (length A)) as [L | L].
  - rewrite app_nth1 in Gy by now rewrite map_length.
    destruct (get_split A j y Gy Ny) as (A1 & gy & A2 & -> & <-).
    exists gx, gy, (fpool A1 ++ fpool A2 ++ fpool B).
    assert (P : forall a b, Permutation (fpool ((A1 ++ b :: A2) ++ a :: B)) (fobj a ++ fobj b ++ fpool A1 ++ fpool A2 ++ fpool B)).
    { intros a b. rewrite fpool_mid. apply Permutation_app_head. rewrite fpool_mid. now rewrite !app_assoc. }
    split; [ eapply good_in; [ exact Gd | apply in_or_app; right; now left ] | ].
    split; [ eapply good_in; [ exact Gd | apply in_or_app; left; apply in_or_app; right; now left ] | ].
    split; [ apply P | ].
    intros a ga b gb Ca Cb Ha Hb. exists ((A1 ++ (b, gb) :: A2) ++ (a, ga) :: B). split; [ | split; [ | split; [ symmetry; apply P | ] ] ].
    + rewrite !map_app. cbn [map fst]. rewrite <- (map_length fst (A1 ++ (y, gy) :: A2)), <- (map_length fst A1).
      rewrite map_app. cbn [map fst]. rewrite set_app. rewrite set_app_l by (rewrite app_length; cbn; lia). now rewrite set_app.
    + rewrite <- app_assoc. cbn [app]. eapply good_put with (x := y) (gx := gy); [ | exact Cb | exact Hb ].
      change ((y, gy) :: A2 ++ (a, ga) :: B) with (((y, gy) :: A2) ++ (a, ga) :: B). rewrite app_assoc.
      eapply good_put; [ exact Gd | exact Ca | exact Ha ].
    + eapply (kept_trans _ _ _ _ ((A1 ++ (y, gy) :: A2) ++ (a, ga) :: B)); [ apply kept_mid | | | ].
      * rewrite <- !app_assoc. cbn [app]. apply kept_mid.
      * intros k E. now left.
      * intros k E. now right.
  - rewrite app_nth2 in Gy by now rewrite map_length. rewrite map_length in Gy.
    destruct (j - length A) as [ | k] eqn:Ek; [ lia | ]. cbn [nth] in Gy.
    destruct (get_split B k y Gy Ny) as (A1 & gy & A2 & -> & <-).
    exists gx, gy, (fpool A ++ fpool A1 ++ fpool A2).
    assert (P : forall a b, Permutation (fpool (A ++ a :: (A1 ++ b :: A2))) (fobj a ++ fobj b ++ fpool A ++ fpool A1 ++ fpool A2)).
    { intros a b. rewrite fpool_mid. apply Permutation_app_head. rewrite fpool_mid. apply Permutation_app_swap_app. }
    split; [ eapply good_in; [ exact Gd | apply in_or_app; right; now left ] | ].
    split; [ eapply good_in; [ exact Gd | apply in_or_app; right; right; apply in_or_app; right; now left ] | ].
    split; [ apply P | ].
    intros a ga b gb Ca Cb Ha Hb. exists (A ++ (a, ga) :: A1 ++ (b, gb) :: A2). split; [ | split; [ | split; [ symmetry; apply P | ] ] ].
    + rewrite map_app. cbn [map fst]. rewrite <- (map_length fst A). rewrite set_app.
      replace j with (length (map fst A) + S (length A1)) by (rewrite map_length; lia).
      rewrite set_app_r. cbn [set]. rewrite !map_app. cbn [map fst]. rewrite <- (map_length fst A1), set_app.
      now rewrite map_app.
    + change ((a, ga) :: A1 ++ (b, gb) :: A2) with (((a, ga) :: A1) ++ (b, gb) :: A2). rewrite app_assoc.
      eapply good_put with (x := y) (gx := gy); [ | exact Cb | exact Hb ]. rewrite <- app_assoc. cbn [app].
      eapply good_put; [ exact Gd | exact Ca | exact Ha ].
    + eapply (kept_trans _ _ _ _ (A ++ (a, ga) :: A1 ++ (y, gy) :: A2)); [ apply kept_mid | | | ].
      * change ((a, ga) :: A1 ++ (y, gy) :: A2) with (((a, ga) :: A1) ++ (y, gy) :: A2).
        change ((a, ga) :: A1 ++ (b, gb) :: A2) with (((a, ga) :: A1) ++ (b, gb) :: A2). rewrite !app_assoc. apply kept_mid.
      * intros k E. now left.
      * intros k E. right. rewrite E, app_length. cbn [length]. lia.
Qed.

Lemma good_push : forall ps K o g, good ps K -> cobj (o, g) -> held K o -> good (ps ++ [(o, g)]) K.
Proof.
  intros ps K o g [O S Hh] C Ho. constructor; [ | exact S | ].
  - apply Forall_app. split; [ exact O | now constructor ].
  - rewrite map_app. apply Forall_app. split; [ exact Hh | now constructor ].
Qed.

Lemma kept_push : forall T ps x, kept T ps (ps ++ [x]).
Proof.
  intros T ps x k z _ E. rewrite nth_error_app1; [ exact E | ]. apply nth_error_Some. congruence.
Qed.
Lemma kept_refl : forall T ps, kept T ps ps.
Proof. now intros T ps k z _ E. Qed.

Lemma good_nil : good [] [].
Proof. constructor; constructor. Qed.

(** ** Text arguments *)

Lemma ctext_cin : forall p v X F, ctext p v -> Permutation F (ftext p v ++ X) -> cin (CInside p) F v.
Proof.
  intros [a | ] [s | ] X F C P; cbn in C; try easy. cbn. exists s, Many, X. split; [ reflexivity | exact P ].
Qed.

Lemma getter_cin : forall o g k, cobj (o, g) -> exists v, cin (CInside (getter o k)) (fobj (o, g)) v.
Proof.
  intros o g k C.
  assert (Z : exists v, cin (CInside None) (fobj (o, g)) v) by now exists None.
  assert (T : forall p v X, ctext p v -> Permutation (fobj (o, g)) (ftext p v ++ X) ->
    exists w, cin (CInside p) (fobj (o, g)) w).
  { intros p v X Cp P. exists v. eapply ctext_cin; eassumption. }
  destruct o as [o | o | o | o | o | o | ], g as [v | v | v | v | v | ]; cbn in C; try easy;
    destruct k as [ | [ | [ | [ | k]]]]; cbn [getter]; try exact Z.
  all: cbn [fobj] in T |- *; unfold faddr, fatt, fcred, fmsg, fbase, faddr in T |- *.
  all: lazymatch type of C with
       | caddr _ _ => destruct C as (C1 & C2)
       | catt _ _ => destruct C as (C1 & C2 & C3)
       | ccred _ _ => destruct C as (C1 & C2 & C3)
       | cmsg _ _ => destruct C as [(C1 & C2) ? ? ? ? ? ?]
       | cbase _ _ => destruct C
       end.
  all: eapply T; [ eassumption | perm ].
Qed.
