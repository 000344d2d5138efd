(** Ownership: one operation of a program. *)

From Coq Require Import Ascii String List NArith ZArith Bool Arith Lia Permutation.
From Verif Require Import Base ModelUtil ModelBase64 ModelAddress ModelAttachment ModelMessage ModelHeap SpecHeap
  ProofText ProofHeap ProofHeap2 ProofHeap3 ProofHeap4 ProofHeap5 ProofHeap6.
Import ListNotations.
Open Scope nat_scope.

Definition F0 (ps : list (obj * gobj)) (K : store) : foot := fpool ps ++ fstore K.
Definition E0 (ps : list (obj * gobj)) (K : store) (G : foot) : Prop := Permutation G (F0 ps K).

(** The credentials of the cpp clients outside [T] are still there. *)
Definition creds_kept (T : nat -> Prop) (ps : list (obj * gobj)) (K K' : store) : Prop :=
  forall k c a g, ~ T k -> get k (map fst ps) = OCpp c -> po_cred c = Some a -> In (a, g) K -> In (a, g) K'.

Lemma creds_refl : forall T ps K, creds_kept T ps K K.
Proof. now intros T ps K k c a g. Qed.

(** What an operation leaves: objects in order, and blocks nobody owns. *)
Definition left_by (ps : list (obj * gobj)) (K : store) (o : hop) (p' : pool) (G : foot) : Prop :=
  exists ps' K' L, p' = map fst ps' /\ good ps' K' /\ G = F0 ps' K' ++ L /\
    (tidy_op (map fst ps) o -> L = [] /\ K' = K) /\ kept (touches o) ps ps' /\ creds_kept (touches o) ps K K'.

Lemma tri_seqE : forall A C U (E1 E : foot -> Prop) F X Fz (m : H A) (k : A -> H C) Q Q',
  tri U E1 F m Q ->
  Permutation Fz (F ++ X) ->
  (forall G, E1 G -> E (G ++ X)) ->
  (forall a G, Q a G -> tri U E (G ++ X) (k a) Q') ->
  tri U E Fz (hbind m k) Q'.
Proof.
  intros A C U E1 E F X Fz m k Q Q' T P Ie K h R S. unfold hbind.
  assert (S1 : Sat h (F ++ (X ++ R))).
  { eapply Sat_perm; [ | exact S ]. rewrite app_assoc. now apply Permutation_app_tail. }
  specialize (T h _ S1).
  destruct (m h) as [[a | | u | | | ] h']; try exact T; try contradiction.
  - destruct T as (G & q & S2). apply (K a G q). now rewrite <- app_assoc.
  - destruct T as (G & e & S2). exists (G ++ X). split; [ now apply Ie | ]. now rewrite <- app_assoc.
Qed.

Lemma tri_wrap : forall A B U E F (c : A -> B) (m : H A) (Q : A -> foot -> Prop) (Q' : B -> foot -> Prop),
  tri U E F m Q -> (forall a G, Q a G -> exists G', Permutation G G' /\ Q' (c a) G') ->
  tri U E F (a <~ m ;; hret (c a)) Q'.
Proof.
  intros A B U E F c m Q Q' T I h R S. specialize (T h R S). unfold hbind.
  destruct (m h) as [[a | | u | | | ] h']; try exact T.
  destruct T as (G & q & S'). destruct (I a G q) as (G' & P & q'). exists G'. split; [ exact q' | ].
  eapply Sat_perm; [ | exact S' ]. now apply Permutation_app_tail.
Qed.

Lemma step_push : forall U ps K o (m : H obj), good ps K ->
  tri U (E0 ps K) (F0 ps K) m (fun x G => exists g, cobj (x, g) /\ held K x /\ Permutation G (F0 ps K ++ fobj (x, g))) ->
  tri U (E0 ps K) (F0 ps K) (push (map fst ps) m) (left_by ps K o).
Proof.
  intros U ps K o m Gd T. unfold push. eapply tri_wrap; [ exact T | ].
  intros x G (g & C & Hx & P). exists (F0 (ps ++ [(x, g)]) K ++ []). split.
  - rewrite P. unfold F0. rewrite fpool_app. cbn [fpool flat_map]. perm.
  - exists (ps ++ [(x, g)]), K, []. rewrite map_app. split; [ reflexivity | ].
    split; [ now apply good_push | ]. split; [ reflexivity | ]. split; [ now split | ]. split; [ apply kept_push | apply creds_refl ].
Qed.

(** Putting the results of a focus back. *)
Definition back (ps : list (obj * gobj)) (K : store) (i : nat) (R : foot) (o : hop) (y : obj) (G : foot) : Prop :=
  exists gy K' L, cobj (y, gy) /\ cstore K' /\ held K' y /\
    (forall j c, j <> i -> get j (map fst ps) = OCpp c -> held K' (OCpp c)) /\
    Permutation G (fobj (y, gy) ++ R ++ fstore K' ++ L) /\
    (tidy_op (map fst ps) o -> L = [] /\ K' = K) /\ creds_kept (fun k => k = i) ps K K'.

Lemma others_held : forall ps K i, good ps K ->
  forall j c, j <> i -> get j (map fst ps) = OCpp c -> held K (OCpp c).
Proof.
  intros ps K i [_ _ Hh] j c _ Ej. rewrite <- Ej. unfold get.
  destruct (Nat.lt_ge_cases j (length (map fst ps))) as [L | L].
  - exact (proj1 (Forall_forall _ _) Hh _ (nth_In _ _ L)).
  - rewrite nth_overflow by exact L. exact Logic.I.
Qed.

Lemma get_held : forall ps K i, good ps K -> held K (get i (map fst ps)).
Proof.
  intros ps K i Gd. destruct (get i (map fst ps)) eqn:E; try exact Logic.I.
  eapply (others_held ps K (S i) Gd i); [ lia | exact E ].
Qed.

(** A text argument, seen from the whole pool. *)
Lemma eval_cin : forall ps K a, good ps K -> exists v, cin (eval (map fst ps) a) (F0 ps K) v.
Proof.
  intros ps K [ | s | i k] Gd; [ now exists None | now exists (Some (cstr s)) | ]. cbn [eval].
  destruct (get i (map fst ps)) eqn:Ei; cycle -1; [ cbn; now exists None | .. ].
  all: destruct (focus1 ps K i _ Gd Ei) as (g & R & C & P & _); [ discriminate | ];
       destruct (getter_cin _ _ k C) as (v & Cv); exists v;
       eapply cin_perm with (F := fobj (_, g) ++ R ++ fstore K);
         [ unfold F0; rewrite P; rewrite <- app_assoc; apply Permutation_refl | now apply cin_app ].
Qed.

(** A text argument that comes from another object. *)
Lemma eval_cin_other : forall ps K i R a, good ps K ->
  (forall j, j <> i -> get j (map fst ps) <> OGone ->
     exists gz X, cobj (get j (map fst ps), gz) /\ Permutation R (fobj (get j (map fst ps), gz) ++ X)) ->
  (forall k, a <> AGetter i k) ->
  exists v, cin (eval (map fst ps) a) R v.
Proof.
  intros ps K i R [ | s | j k] Gd Fo N; [ now exists None | now exists (Some (cstr s)) | ]. cbn [eval].
  assert (Nj : j <> i) by (intros ->; now apply (N k)).
  specialize (Fo j Nj).
  destruct (get j (map fst ps)) eqn:Ej; cycle -1; [ cbn; now exists None | .. ].
  all: destruct Fo as (g & X & C & P); [ discriminate | ];
       destruct (getter_cin _ _ k C) as (v & Cv); exists v;
       eapply cin_perm; [ symmetry; exact P | now apply cin_app ].
Qed.

Lemma step_put1 : forall U ps K i o R (m : H obj), good ps K ->
  (forall y gy K', cobj (y, gy) -> cstore K' -> held K' y ->
     (forall j c, j <> i -> get j (map fst ps) = OCpp c -> held K' (OCpp c)) ->
     exists ps', set i y (map fst ps) = map fst ps' /\ good ps' K' /\
       Permutation (fobj (y, gy) ++ R) (fpool ps') /\ kept (fun k => k = i) ps ps') -> (forall k, k = i -> touches o k) ->
  tri U (E0 ps K) (F0 ps K) m (back ps K i R o) ->
  tri U (E0 ps K) (F0 ps K) (put1 (map fst ps) i m) (left_by ps K o).
Proof.
  intros U ps K i o R m Gd Put To T. unfold put1. eapply tri_wrap; [ exact T | ].
  intros y G (gy & K' & L & Cy & Ck & Hy & Ho & P & Ti & Kc).
  destruct (Put y gy K' Cy Ck Hy Ho) as (ps' & Es & Gd' & P' & Kp).
  exists (F0 ps' K' ++ L). split.
  - rewrite P. unfold F0. rewrite <- P'. perm.
  - exists ps', K', L. split; [ exact Es | ]. split; [ exact Gd' | ]. split; [ reflexivity | ]. split; [ exact Ti | ].
    split; [ intros k z Nk; apply Kp | intros k c a g Nk; apply Kc ]; intros E; now apply Nk, To.
Qed.

Lemma step_same : forall U ps K o, good ps K ->
  tri U (E0 ps K) (F0 ps K) (hret (map fst ps)) (left_by ps K o).
Proof.
  intros U ps K o Gd. eapply tri_ret; [ apply Permutation_refl | ]. exists ps, K, []. rewrite app_nil_r.
  split; [ reflexivity | ]. split; [ exact Gd | ]. split; [ reflexivity | ]. split; [ now split | ]. split; [ apply kept_refl | apply creds_refl ].
Qed.

Definition U0 (u : ub) : Prop := mem_error u = false.
Lemma okU0 : okU U0.
Proof. split; [ intros q; reflexivity | reflexivity ]. Qed.
Lemma nulls0 : nulls U0.
Proof. exact (proj1 okU0). Qed.
#[global] Hint Resolve okU0 nulls0 : heap.

Lemma E0_refl : forall ps K, E0 ps K (F0 ps K).
Proof. intros. apply Permutation_refl. Qed.
#[global] Hint Resolve E0_refl : heap.

(** ** Constructors *)

Lemma step_VAddr : forall ps K e n, good ps K ->
  tri U0 (E0 ps K) (F0 ps K) (hstep (map fst ps) (VAddr e n)) (left_by ps K (VAddr e n)).
Proof.
  intros ps K e n Gd. cbn [hstep]. apply step_push; [ exact Gd | ].
  destruct (eval_cin ps K e Gd) as (ve & Ce), (eval_cin ps K n Gd) as (vn & Cn).
  unfold wrap. eapply tri_wrap; [ apply (tri_addr_new U0 _ _ _ _ _ _ okU0 (E0_refl ps K) Ce Cn) | ].
  intros o G (v & C & W & -> & _). eexists. split; [ apply Permutation_refl | ].
  exists (GAddr v). split; [ exact C | ]. split; [ exact Logic.I | apply Permutation_refl ].
Qed.

Lemma step_VAtt : forall ps K f n c, good ps K ->
  tri U0 (E0 ps K) (F0 ps K) (hstep (map fst ps) (VAtt f n c)) (left_by ps K (VAtt f n c)).
Proof.
  intros ps K f n c Gd. cbn [hstep]. apply step_push; [ exact Gd | ].
  destruct (eval_cin ps K f Gd) as (vf & Cf), (eval_cin ps K n Gd) as (vn & Cn), (eval_cin ps K c Gd) as (vc & Cc).
  unfold wrap. eapply tri_wrap; [ apply (tri_att_new U0 _ _ _ _ _ _ _ _ okU0 (E0_refl ps K) Cf Cn Cc) | ].
  intros o G (v & C & W & -> & _). eexists. split; [ apply Permutation_refl | ].
  exists (GAtt v). split; [ exact C | ]. split; [ exact Logic.I | apply Permutation_refl ].
Qed.

Lemma step_VCred : forall ps K u w, good ps K ->
  tri U0 (E0 ps K) (F0 ps K) (hstep (map fst ps) (VCred u w)) (left_by ps K (VCred u w)).
Proof.
  intros ps K u w Gd. cbn [hstep]. apply step_push; [ exact Gd | ].
  destruct (eval_cin ps K u Gd) as (vu & Cu), (eval_cin ps K w Gd) as (vw & Cw).
  unfold wrap. eapply tri_wrap; [ apply (tri_cred_new U0 _ _ _ _ _ _ okU0 (E0_refl ps K) Cu Cw) | ].
  intros o G (v & C & W & -> & _). eexists. split; [ apply Permutation_refl | ].
  exists (GCred v). split; [ exact C | ]. split; [ exact Logic.I | apply Permutation_refl ].
Qed.

Lemma step_VCred3 : forall ps K u w m, good ps K ->
  tri U0 (E0 ps K) (F0 ps K) (hstep (map fst ps) (VCred3 u w m)) (left_by ps K (VCred3 u w m)).
Proof.
  intros ps K u w m Gd. cbn [hstep]. apply step_push; [ exact Gd | ].
  destruct (eval_cin ps K u Gd) as (vu & Cu), (eval_cin ps K w Gd) as (vw & Cw).
  unfold wrap. eapply tri_wrap; [ apply (tri_cred_new3 U0 _ _ _ _ m _ _ okU0 (E0_refl ps K) Cu Cw) | ].
  intros o G (v & C & W & -> & _). eexists. split; [ apply Permutation_refl | ].
  exists (GCred v). split; [ exact C | ]. split; [ exact Logic.I | apply Permutation_refl ].
Qed.

Lemma tri_cpp_new : forall U (E : foot -> Prop) F c o, okU U -> E F -> cin c F o ->
  tri U E F (cpp_new c) (fun x G => exists g, cbase (po_base x) g /\ po_cred x = None /\
    G = F ++ fbase (po_base x) g).
Proof.
  intros U E F c o Ok Ef C. unfold cpp_new. eapply tri_wrap; [ apply (tri_base_new U E F c o Ok Ef C) | ].
  intros b G (s & _ & Cb & ->). eexists. split; [ apply Permutation_refl | ]. eexists. split; [ exact Cb | now split ].
Qed.

Lemma step_VBase : forall ps K s, good ps K ->
  tri U0 (E0 ps K) (F0 ps K) (hstep (map fst ps) (VBase s)) (left_by ps K (VBase s)).
Proof.
  intros ps K s Gd. cbn [hstep]. apply step_push; [ exact Gd | ].
  destruct (eval_cin ps K s Gd) as (v & C).
  unfold wrap. eapply tri_wrap; [ apply (tri_base_new U0 _ _ _ _ okU0 (E0_refl ps K) C) | ].
  intros o G (z & _ & Cb & ->). eexists. split; [ apply Permutation_refl | ].
  exists (GBase (mkGB (Some z) None None None)). split; [ exact Cb | ]. split; [ exact Logic.I | apply Permutation_refl ].
Qed.

Lemma step_VCpp : forall ps K s, good ps K ->
  tri U0 (E0 ps K) (F0 ps K) (hstep (map fst ps) (VCpp s)) (left_by ps K (VCpp s)).
Proof.
  intros ps K s Gd. cbn [hstep]. apply step_push; [ exact Gd | ].
  destruct (eval_cin ps K s Gd) as (v & C).
  unfold wrap. eapply tri_wrap; [ apply (tri_cpp_new U0 _ _ _ _ okU0 (E0_refl ps K) C) | ].
  intros o G (g & Cb & Nc & ->). eexists. split; [ apply Permutation_refl | ].
  exists (GBase g). split; [ exact Cb | ]. split; [ cbn; now rewrite Nc | apply Permutation_refl ].
Qed.

Lemma addrs_within : forall ps K l q, good ps K -> addrs_of (map fst ps) l = Some q ->
  forall o, In o q -> exists v, within caddr faddr (F0 ps K) o v.
Proof.
  intros ps K l. induction l as [ | i r IH]; intros q Gd Eq o I; cbn in Eq.
  - injection Eq as <-. easy.
  - destruct (get i (map fst ps)) eqn:Ei; try easy. destruct (addrs_of (map fst ps) r) as [q' | ] eqn:Er; [ | easy ].
    injection Eq as <-. destruct I as [<- | I]; [ | now apply (IH q') ].
    destruct (focus1 ps K i _ Gd Ei) as (g & R & C & P & _); [ discriminate | ].
    destruct g; cbn in C; try easy. exists v. split; [ exact C | ]. exists (R ++ fstore K). unfold F0. rewrite P. cbn [fobj].
    now rewrite <- app_assoc.
Qed.
Lemma atts_within : forall ps K l q, good ps K -> atts_of (map fst ps) l = Some q ->
  forall o, In o q -> exists v, within catt fatt (F0 ps K) o v.
Proof.
  intros ps K l. induction l as [ | i r IH]; intros q Gd Eq o I; cbn in Eq.
  - injection Eq as <-. easy.
  - destruct (get i (map fst ps)) eqn:Ei; try easy. destruct (atts_of (map fst ps) r) as [q' | ] eqn:Er; [ | easy ].
    injection Eq as <-. destruct I as [<- | I]; [ | now apply (IH q') ].
    destruct (focus1 ps K i _ Gd Ei) as (g & R & C & P & _); [ discriminate | ].
    destruct g; cbn in C; try easy. exists v. split; [ exact C | ]. exists (R ++ fstore K). unfold F0. rewrite P. cbn [fobj].
    now rewrite <- app_assoc.
Qed.
Lemma addr_array_within : forall ps K a q, good ps K -> addr_array (map fst ps) a = Some q ->
  forall o, In o (members q) -> exists v, within caddr faddr (F0 ps K) o v.
Proof.
  intros ps K [n | l] q Gd Eq o I; cbn in Eq; [ injection Eq as <-; easy | ].
  destruct (addrs_of (map fst ps) l) as [q' | ] eqn:El; [ | easy ]. injection Eq as <-. now apply (addrs_within ps K l q' Gd El).
Qed.
Lemma att_array_within : forall ps K a q, good ps K -> att_array (map fst ps) a = Some q ->
  forall o, In o (members q) -> exists v, within catt fatt (F0 ps K) o v.
Proof.
  intros ps K [n | l] q Gd Eq o I; cbn in Eq; [ injection Eq as <-; easy | ].
  destruct (atts_of (map fst ps) l) as [q' | ] eqn:El; [ | easy ]. injection Eq as <-. now apply (atts_within ps K l q' Gd El).
Qed.

Lemma present_cin : forall p a F v, present p a -> cin (eval p a) F v -> v <> None.
Proof.
  intros p a F v Pr C. unfold present in Pr. destruct (eval p a) as [ | s | [x | ]]; cbn in C; try easy.
  - congruence.
  - destruct C as (s & k & G & -> & _). discriminate.
Qed.

Lemma step_VMsg : forall ps K f t c d s b a, good ps K -> careful (map fst ps) (VMsg f t c d s b a) ->
  tri U0 (E0 ps K) (F0 ps K) (hstep (map fst ps) (VMsg f t c d s b a)) (left_by ps K (VMsg f t c d s b a)).
Proof.
  intros ps K f t c d s b a Gd (Ps & Pb). cbn [hstep].
  destruct (get f (map fst ps)) eqn:Ef; try (now apply step_same).
  destruct (addr_array (map fst ps) t) as [t' | ] eqn:Et; [ | now apply step_same ].
  destruct (addr_array (map fst ps) c) as [c' | ] eqn:Ec; [ | now apply step_same ].
  destruct (addr_array (map fst ps) d) as [d' | ] eqn:Ed; [ | now apply step_same ].
  destruct (att_array (map fst ps) a) as [a' | ] eqn:Ea; [ | now apply step_same ].
  apply step_push; [ exact Gd | ].
  destruct (eval_cin ps K s Gd) as (vs & Cs), (eval_cin ps K b Gd) as (vb & Cb).
  assert (Wf : exists v, within caddr faddr (F0 ps K) o v).
  { apply (addrs_within ps K [f] [o] Gd); [ cbn; now rewrite Ef | now left ]. }
  destruct Wf as (vf & Wf).
  unfold wrap. eapply tri_wrap; [ apply (tri_msg_new U0 _ _ o vf t' c' d' a' _ _ vs vb nulls0 Wf
    (addr_array_within _ _ _ _ Gd Et) (addr_array_within _ _ _ _ Gd Ec) (addr_array_within _ _ _ _ Gd Ed)
    (att_array_within _ _ _ _ Gd Ea) Cs (present_cin _ _ _ _ Ps Cs) Cb (present_cin _ _ _ _ Pb Cb)) | ].
  intros m G (g & C & -> & _). eexists. split; [ apply Permutation_refl | ].
  exists (GMsg g). split; [ exact C | ]. split; [ exact Logic.I | apply Permutation_refl ].
Qed.

(** ** Copy and move *)

Lemma tri_cpp_copy : forall U E o g, cbase (po_base o) g -> nulls U ->
  tri U E (fbase (po_base o) g) (cpp_copy o) (fun o' G => exists g', cbase (po_base o') g' /\ po_cred o' = po_cred o /\
    G = fbase (po_base o) g ++ fbase (po_base o') g').
Proof.
  intros U E o g C N. unfold cpp_copy. eapply tri_wrap; [ apply (tri_base_copy U E _ g C (or_intror N)) | ].
  intros b G (g' & Cb & _ & ->). eexists. split; [ apply Permutation_refl | ]. eexists. split; [ exact Cb | now split ].
Qed.

Lemma step_VCopy : forall ps K i, good ps K ->
  tri U0 (E0 ps K) (F0 ps K) (hstep (map fst ps) (VCopy i)) (left_by ps K (VCopy i)).
Proof.
  intros ps K i Gd. cbn [hstep].
  destruct (get i (map fst ps)) as [o | o | o | o | o | o | ] eqn:Ei; cycle -1; [ now apply step_same | .. ].
  all: destruct (focus1 ps K i _ Gd Ei) as (g & R & C & P & _); [ discriminate | ].
  all: destruct g as [v | v | v | g | g | ]; cbn in C; try easy.
  all: assert (P0 : Permutation (F0 ps K) (fobj (get i (map fst ps), _) ++ R ++ fstore K))
         by (unfold F0; rewrite P, Ei; apply Permutation_refl || (rewrite <- app_assoc; apply Permutation_refl)).
  all: rewrite Ei in P0; cbn [fobj] in P0; apply step_push; [ exact Gd | ]; unfold wrap.
  - eapply tri_wrap; [ eapply tri_frame; [ apply (tri_addr_copy U0 _ o v C (or_intror nulls0)) | exact P0 ] | ].
    intros o' G (G0 & (C' & W & ->) & ->). eexists. split; [ apply Permutation_refl | ].
    exists (GAddr v). split; [ exact C' | ]. split; [ exact Logic.I | ]. rewrite P0. cbn [fobj]. perm.
  - eapply tri_wrap; [ eapply tri_frame; [ apply (tri_att_copy U0 _ o v C (or_intror nulls0)) | exact P0 ] | ].
    intros o' G (G0 & (C' & W & ->) & ->). eexists. split; [ apply Permutation_refl | ].
    exists (GAtt v). split; [ exact C' | ]. split; [ exact Logic.I | ]. rewrite P0. cbn [fobj]. perm.
  - eapply tri_wrap; [ eapply tri_frame; [ apply (tri_cred_copy U0 _ o v C (or_intror nulls0)) | exact P0 ] | ].
    intros o' G (G0 & (C' & W & ->) & ->). eexists. split; [ apply Permutation_refl | ].
    exists (GCred v). split; [ exact C' | ]. split; [ exact Logic.I | ]. rewrite P0. cbn [fobj]. perm.
  - eapply tri_wrap; [ eapply tri_frame; [ apply (tri_msg_copy U0 _ o g C (or_intror nulls0)) | exact P0 ] | ].
    intros o' G (G0 & (g' & C' & _ & _ & _ & _ & _ & _ & _ & _ & ->) & ->). eexists. split; [ apply Permutation_refl | ].
    exists (GMsg g'). split; [ exact C' | ]. split; [ exact Logic.I | ]. rewrite P0. cbn [fobj]. perm.
  - eapply tri_wrap; [ eapply tri_frame; [ apply (tri_base_copy U0 _ o g C (or_intror nulls0)) | exact P0 ] | ].
    intros o' G (G0 & (g' & C' & _ & ->) & ->). eexists. split; [ apply Permutation_refl | ].
    exists (GBase g'). split; [ exact C' | ]. split; [ exact Logic.I | ]. rewrite P0. cbn [fobj]. perm.
  - eapply tri_wrap; [ eapply tri_frame; [ apply (tri_cpp_copy U0 _ o g C nulls0) | exact P0 ] | ].
    intros o' G (G0 & (g' & C' & Ep & ->) & ->). eexists. split; [ apply Permutation_refl | ].
    exists (GBase g'). split; [ exact C' | ]. split.
    + pose proof (get_held ps K i Gd) as Hh. rewrite Ei in Hh. cbn in *. now rewrite Ep.
    + rewrite P0. cbn [fobj]. perm.
Qed.

(** A move: the new object takes everything, the old one is left empty. *)
Lemma step_pushput : forall U ps K i o x gx R gy gr (m : H (obj * obj)) (y r : obj), good ps K ->
  (forall y gy K', cobj (y, gy) -> cstore K' -> held K' y ->
     (forall j c, j <> i -> get j (map fst ps) = OCpp c -> held K' (OCpp c)) ->
     exists ps', set i y (map fst ps) = map fst ps' /\ good ps' K' /\
       Permutation (fobj (y, gy) ++ R) (fpool ps') /\ kept (fun k => k = i) ps ps') -> (forall k, k = i -> touches o k) ->
  Permutation (fpool ps) (fobj (x, gx) ++ R) ->
  (forall h, m h = (Done (y, r), h)) ->
  cobj (y, gy) -> cobj (r, gr) -> held K y -> held K r ->
  Permutation (fobj (x, gx)) (fobj (y, gy) ++ fobj (r, gr)) ->
  tri U (E0 ps K) (F0 ps K) (pushput (map fst ps) i m) (left_by ps K o).
Proof.
  intros U ps K i o x gx R gy gr m y r Gd Put To P Em Cy Cr Hy Hr Pf h Z S. unfold pushput, hbind. rewrite Em. cbn.
  destruct (Put r gr K Cr (gd_store _ _ Gd) Hr (others_held ps K i Gd)) as (ps' & Es & Gd' & P' & Kp).
  exists (F0 (ps' ++ [(y, gy)]) K ++ []). split.
  - exists (ps' ++ [(y, gy)]), K, []. rewrite map_app, <- Es. split; [ reflexivity | ].
    split; [ now apply good_push | ]. split; [ reflexivity | ]. split; [ now split | ].
    split; [ | apply creds_refl ]. eapply kept_trans; [ exact Kp | apply kept_push with (T := fun k => k = i) | exact To | exact To ].
  - eapply Sat_perm; [ | exact S ]. apply Permutation_app_tail. unfold F0. rewrite fpool_app. cbn [fpool flat_map].
    rewrite P, Pf, <- P'. perm.
Qed.

Lemma step_VMove : forall ps K i, good ps K ->
  tri U0 (E0 ps K) (F0 ps K) (hstep (map fst ps) (VMove i)) (left_by ps K (VMove i)).
Proof.
  intros ps K i Gd. cbn [hstep]. pose proof (get_held ps K i Gd) as Hh.
  destruct (get i (map fst ps)) as [o | o | o | o | o | o | ] eqn:Ei; cycle -1; [ now apply step_same | .. ].
  all: destruct (focus1 ps K i _ Gd Ei) as (g & R & C & P & _ & Put); [ discriminate | ].
  all: destruct g as [v | v | v | g | g | ]; cbn in C; try easy.
  - eapply step_pushput with (gy := GAddr v) (gr := GAddr (None, None)) (y := OAddr o) (r := OAddr addr_null);
      [ exact Gd | exact Put | now intros k -> | exact P | reflexivity | exact C | now split | exact Logic.I | exact Logic.I | ].
    cbn [fobj]. unfold faddr. cbn [addr_null ao_email ao_name ftext fst snd app]. now rewrite app_nil_r.
  - eapply step_pushput with (gy := GAtt v) (gr := GAtt (None, None, None)) (y := OAtt o) (r := OAtt att_null);
      [ exact Gd | exact Put | now intros k -> | exact P | reflexivity | exact C | now repeat split | exact Logic.I | exact Logic.I | ].
    cbn [fobj]. unfold fatt. cbn [att_null to_name to_file to_cid ftext fst snd app]. now rewrite app_nil_r.
  - eapply step_pushput with (gy := GCred v) (gr := GCred (None, None, co_method o)) (y := OCred o) (r := OCred (cred_null o));
      [ exact Gd | exact Put | now intros k -> | exact P | reflexivity | exact C | now repeat split | exact Logic.I | exact Logic.I | ].
    cbn [fobj]. unfold fcred. cbn [cred_null co_user co_pass ftext fst snd app]. now rewrite app_nil_r.
  - eapply step_pushput with (gy := GMsg g) (gr := GMsg (gnull (None, None))) (y := OMsg o) (r := OMsg (msg_null addr_null));
      [ exact Gd | exact Put | now intros k -> | exact P | | exact C | | exact Logic.I | exact Logic.I | ].
    + intros h. now destruct o.
    + apply cmsg_null. now split.
    + cbn [fobj]. rewrite fmsg_null. unfold faddr. cbn [addr_null ao_email ao_name ftext fst snd app]. now rewrite app_nil_r.
  - eapply step_pushput with (gy := GBase g) (gr := GBase gbnull) (y := OBase o) (r := OBase base_null);
      [ exact Gd | exact Put | now intros k -> | exact P | reflexivity | exact C | exact cbase_null | exact Logic.I | exact Logic.I | ].
    cbn [fobj]. rewrite fbase_null. now rewrite app_nil_r.
  - eapply step_pushput with (gy := GBase g) (gr := GBase gbnull) (y := OCpp o) (r := OCpp (mkPO base_null (po_cred o)));
      [ exact Gd | exact Put | now intros k -> | exact P | | exact C | exact cbase_null | exact Hh | exact Hh | ].
    + intros h. now destruct o.
    + cbn [fobj po_base]. rewrite fbase_null. now rewrite app_nil_r.
Qed.

(** ** Assignment *)

Lemma back_intro : forall ps K i R o y gy G L, good ps K -> cobj (y, gy) -> held K y ->
  Permutation G (fobj (y, gy) ++ R ++ fstore K ++ L) -> (tidy_op (map fst ps) o -> L = []) ->
  back ps K i R o y G.
Proof.
  intros ps K i R o y gy G L Gd C Hy P T. exists gy, K, L. split; [ exact C | ].
  split; [ exact (gd_store _ _ Gd) | ]. split; [ exact Hy | ]. split; [ exact (others_held ps K i Gd) | ].
  split; [ exact P | ]. split; [ | apply creds_refl ]. intros t. split; [ now apply T | reflexivity ].
Qed.

Lemma tidies_of : forall m m2,
  ~ fills (mo_to m) (mo_nto m) (mo_nto m2) /\ ~ fills (mo_cc m) (mo_ncc m) (mo_ncc m2) /\
  ~ fills (mo_bcc m) (mo_nbcc m) (mo_nbcc m2) /\ ~ fills (mo_atts m) (mo_natts m) (mo_natts m2) -> tidies m m2.
Proof.
  intros m m2 (F1 & F2 & F3 & F4). unfold fills, tidies, tidy in *.
  assert (X : forall a n k, ~ (n = 0 /\ a <> None /\ k <> 0) -> n <> 0 \/ a = (None : ptr) \/ k = 0).
  { intros a n k N. destruct n; [ right | now left ]. destruct a; [ right | now left ].
    destruct k; [ reflexivity | exfalso; apply N; repeat split; discriminate ]. }
  repeat split; now apply X.
Qed.

Lemma step_VAssign : forall ps K i j, good ps K -> careful (map fst ps) (VAssign i j) ->
  tri U0 (E0 ps K) (F0 ps K) (hstep (map fst ps) (VAssign i j)) (left_by ps K (VAssign i j)).
Proof.
  intros ps K i j Gd Ca. cbn [hstep careful] in *. destruct (Nat.eqb_spec i j) as [E | N]; [ now apply step_same | ].
  pose proof (get_held ps K j Gd) as Hh.
  destruct (get i (map fst ps)) as [o | o | o | o | o | o | ] eqn:Ei; cycle -1; [ now apply step_same | .. ].
  all: destruct (get j (map fst ps)) as [o2 | o2 | o2 | o2 | o2 | o2 | ] eqn:Ej; try (now apply step_same).
  all: destruct (focus1 ps K i _ Gd Ei) as (g & R & C & P & Fo & Put); [ discriminate | ].
  all: destruct (Fo j (not_eq_sym N)) as (g2 & X & C2 & P2); [ rewrite Ej; discriminate | ]; rewrite Ej in C2, P2.
  all: destruct g as [v | v | v | g | g | ]; cbn in C; try easy.
  all: destruct g2 as [v2 | v2 | v2 | g2 | g2 | ]; cbn in C2; try easy.
  all: eapply step_put1; [ exact Gd | exact Put | now intros k -> | ]; unfold wrap.
  all: cbn [fobj] in P, P2.
  all: match type of P with Permutation _ (?f ++ _) => match type of P2 with Permutation _ (?f2 ++ ?x) =>
         assert (P0 : Permutation (F0 ps K) ((f ++ f2) ++ x ++ fstore K)) by (unfold F0; rewrite P, P2; perm) end end.
  - eapply tri_wrap; [ eapply tri_frame; [ apply (tri_addr_assign U0 _ _ _ _ _ C C2 (or_intror nulls0)) | exact P0 ] | ].
    intros o' G (G0 & (C' & W & ->) & ->). eexists. split; [ apply Permutation_refl | ].
    apply (back_intro ps K i R _ (OAddr o') (GAddr v2) _ []); [ exact Gd | exact C' | exact Logic.I | | reflexivity ].
    cbn [fobj]. rewrite P2. perm.
  - eapply tri_wrap; [ eapply tri_frame; [ apply (tri_att_assign U0 _ _ _ _ _ C C2 (or_intror nulls0)) | exact P0 ] | ].
    intros o' G (G0 & (C' & W & ->) & ->). eexists. split; [ apply Permutation_refl | ].
    apply (back_intro ps K i R _ (OAtt o') (GAtt v2) _ []); [ exact Gd | exact C' | exact Logic.I | | reflexivity ].
    cbn [fobj]. rewrite P2. perm.
  - eapply tri_wrap; [ eapply tri_frame; [ apply (tri_cred_assign U0 _ _ _ _ _ C C2 (or_intror nulls0)) | exact P0 ] | ].
    intros o' G (G0 & (C' & W & ->) & ->). eexists. split; [ apply Permutation_refl | ].
    apply (back_intro ps K i R _ (OCred o') (GCred v2) _ []); [ exact Gd | exact C' | exact Logic.I | | reflexivity ].
    cbn [fobj]. rewrite P2. perm.
  - destruct Ca as [Ca | (R1 & R2 & R3 & R4)]; [ easy | ].
    eapply tri_wrap; [ eapply tri_frame; [ apply (tri_msg_assign U0 _ _ _ _ _ C C2 (mkRoom _ _ R1 R2 R3 R4) (or_intror nulls0)) | exact P0 ] | ].
    intros o' G (G0 & (g' & L & C' & _ & _ & _ & _ & _ & _ & T & ->) & ->). eexists. split; [ apply Permutation_refl | ].
    apply (back_intro ps K i R _ (OMsg o') (GMsg g') _ L); [ exact Gd | exact C' | exact Logic.I | | ].
    + cbn [fobj]. rewrite P2. perm.
    + intros t. cbn [tidy_op] in t. rewrite Ei, Ej in t. apply T. now apply tidies_of.
  - eapply tri_wrap; [ eapply tri_frame; [ apply (tri_base_assign U0 _ _ _ _ _ C C2 (or_intror nulls0)) | exact P0 ] | ].
    intros o' G (G0 & (g' & C' & _ & ->) & ->). eexists. split; [ apply Permutation_refl | ].
    apply (back_intro ps K i R _ (OBase o') (GBase g') _
      (ftext (bo_log o) (gb_log g) ++ ftext (bo_resp o) (gb_resp g) ++ fcp (bo_cred o) (gb_cred g)));
      [ exact Gd | exact C' | exact Logic.I | | ].
    + cbn [fobj]. rewrite P2. perm.
    + intros t. cbn [tidy_op] in t. rewrite Ei, Ej in t. destruct t as (-> & -> & ->). reflexivity.
  - unfold cpp_assign. apply tri_assoc.
    eapply tri_seq; [ apply (tri_base_assign U0 _ _ _ _ _ C C2 (or_intror nulls0)) | exact P0 | ].
    intros o' G (g' & C' & _ & ->). apply tri_ret_bind. eapply tri_ret; [ apply Permutation_refl | ].
    apply (back_intro ps K i R _ (OCpp (mkPO o' (po_cred o2))) (GBase g') _
      (ftext (bo_log (po_base o)) (gb_log g) ++ ftext (bo_resp (po_base o)) (gb_resp g) ++ fcp (bo_cred (po_base o)) (gb_cred g)));
      [ exact Gd | exact C' | exact Hh | | ].
    + cbn [fobj po_base]. rewrite P2. perm.
    + intros t. cbn [tidy_op] in t. rewrite Ei, Ej in t. destruct t as (-> & -> & ->). reflexivity.
Qed.

Lemma step_put2 : forall U ps K i j o R (m : H (obj * obj)), good ps K ->
  (forall a ga b gb, cobj (a, ga) -> cobj (b, gb) -> held K a -> held K b ->
       exists ps', set j b (set i a (map fst ps)) = map fst ps' /\ good ps' K /\
         Permutation (fobj (a, ga) ++ fobj (b, gb) ++ R) (fpool ps') /\ kept (fun k => k = i \/ k = j) ps ps') ->
  (forall k, k = i \/ k = j -> touches o k) ->
  tri U (E0 ps K) (F0 ps K) m (fun ab G => exists ga gb, cobj (fst ab, ga) /\ cobj (snd ab, gb) /\
    held K (fst ab) /\ held K (snd ab) /\ Permutation G (fobj (fst ab, ga) ++ fobj (snd ab, gb) ++ R ++ fstore K)) ->
  tri U (E0 ps K) (F0 ps K) (put2 (map fst ps) i j m) (left_by ps K o).
Proof.
  intros U ps K i j o R m Gd Put To T. unfold put2.
  apply (tri_wrap _ _ U (E0 ps K) (F0 ps K) (fun oo => let (a, b) := (oo : obj * obj) in set j b (set i a (map fst ps))) m _
    (left_by ps K o)) in T as T'.
  - intros h Z S. specialize (T' h Z S). unfold hbind in *. destruct (m h) as [[[a b] | | u | | | ] h']; exact T'.
  - intros [a b] G (ga & gb & Ca & Cb & Ha & Hb & P). cbn [fst snd] in *.
    destruct (Put a ga b gb Ca Cb Ha Hb) as (ps' & Es & Gd' & P' & Kp). exists (F0 ps' K ++ []). split.
    + rewrite P. unfold F0. rewrite <- P'. perm.
    + exists ps', K, []. rewrite Es. split; [ reflexivity | ]. split; [ exact Gd' | ]. split; [ reflexivity | ].
      split; [ now split | ]. split; [ | apply creds_refl ]. intros k z Nk. apply Kp. intros E. now apply Nk, To.
Qed.

Lemma tri_wrap2 : forall A U E F (c : A -> obj) (m : H (A * A)) Q Q',
  tri U E F m Q -> (forall a b G, Q (a, b) G -> exists G', Permutation G G' /\ Q' (c a, c b) G') ->
  tri U E F (wrap2 c m) Q'.
Proof.
  intros A U E F c m Q Q' T I h R S. specialize (T h R S). unfold wrap2, hbind.
  destruct (m h) as [[[a b] | | u | | | ] h']; try exact T.
  destruct T as (G & q & S'). destruct (I a b G q) as (G' & P & q'). exists G'. split; [ exact q' | ].
  eapply Sat_perm; [ | exact S' ]. now apply Permutation_app_tail.
Qed.

Lemma tri_cpp_move_assign : forall U E o g o2 g2, cbase (po_base o) g -> cbase (po_base o2) g2 ->
  tri U E (fbase (po_base o) g ++ fbase (po_base o2) g2) (cpp_move_assign o o2)
    (fun oo G => oo = (o2, mkPO base_null (po_cred o2)) /\ G = fbase (po_base o2) g2).
Proof.
  intros U E o g o2 g2 C C2. unfold cpp_move_assign.
  eapply tri_seq; [ apply (tri_base_move_assign U _ _ _ _ _ C C2) | perm | ]. intros [a b] G ([= -> ->] & ->).
  eapply tri_ret; [ perm | ]. split; [ now destruct o2 | reflexivity ].
Qed.

Lemma step_VMoveAssign : forall ps K i j, good ps K ->
  tri U0 (E0 ps K) (F0 ps K) (hstep (map fst ps) (VMoveAssign i j)) (left_by ps K (VMoveAssign i j)).
Proof.
  intros ps K i j Gd. cbn [hstep] in *. destruct (Nat.eqb_spec i j) as [E | N]; [ now apply step_same | ].
  pose proof (get_held ps K j Gd) as Hh.
  destruct (get i (map fst ps)) as [o | o | o | o | o | o | ] eqn:Ei; cycle -1; [ now apply step_same | .. ].
  all: destruct (get j (map fst ps)) as [o2 | o2 | o2 | o2 | o2 | o2 | ] eqn:Ej; try (now apply step_same).
  all: destruct (focus2 ps K i j _ _ Gd N Ei ltac:(discriminate) Ej ltac:(discriminate)) as (g & g2 & R & C & C2 & P & Put).
  all: destruct g as [v | v | v | g | g | ]; cbn in C; try easy.
  all: destruct g2 as [v2 | v2 | v2 | g2 | g2 | ]; cbn in C2; try easy.
  all: eapply step_put2; [ exact Gd | exact Put | now intros k E | ].
  all: cbn [fobj] in P.
  all: match type of P with Permutation _ (?f ++ ?f2 ++ ?r) =>
         assert (P0 : Permutation (F0 ps K) ((f ++ f2) ++ r ++ fstore K)) by (unfold F0; rewrite P; perm) end.
  - eapply tri_wrap2; [ eapply tri_frame; [ apply (tri_addr_move_assign U0 _ _ _ _ _ C C2) | exact P0 ] | ].
    intros a b G (G0 & ([= -> ->] & ->) & ->). eexists. split; [ apply Permutation_refl | ].
    exists (GAddr v2), (GAddr (None, None)). cbn [fst snd fobj]. split; [ exact C2 | ]. split; [ now split | ].
    split; [ exact Logic.I | ]. split; [ exact Logic.I | ]. cbn. apply Permutation_refl.
  - eapply tri_wrap2; [ eapply tri_frame; [ apply (tri_att_move_assign U0 _ _ _ _ _ C C2) | exact P0 ] | ].
    intros a b G (G0 & ([= -> ->] & ->) & ->). eexists. split; [ apply Permutation_refl | ].
    exists (GAtt v2), (GAtt (None, None, None)). cbn [fst snd fobj]. split; [ exact C2 | ]. split; [ now repeat split | ].
    split; [ exact Logic.I | ]. split; [ exact Logic.I | ]. cbn. apply Permutation_refl.
  - eapply tri_wrap2; [ eapply tri_frame; [ apply (tri_cred_move_assign U0 _ _ _ _ _ C C2) | exact P0 ] | ].
    intros a b G (G0 & ([= -> ->] & ->) & ->). eexists. split; [ apply Permutation_refl | ].
    exists (GCred v2), (GCred (None, None, co_method o2)). cbn [fst snd fobj]. split; [ exact C2 | ]. split; [ now repeat split | ].
    split; [ exact Logic.I | ]. split; [ exact Logic.I | ]. cbn. apply Permutation_refl.
  - eapply tri_wrap2; [ eapply tri_frame; [ apply (tri_msg_move_assign U0 _ _ _ _ _ C C2 (or_intror nulls0)) | exact P0 ] | ].
    intros a b G (G0 & (m' & [= -> ->] & C' & _ & _ & _ & _ & _ & ->) & ->). eexists. split; [ apply Permutation_refl | ].
    exists (GMsg g2), (GMsg (gnull (g_from g2))). cbn [fst snd fobj]. split; [ exact C' | ].
    split; [ apply cmsg_null, (cm_from _ _ C2) | ].
    split; [ exact Logic.I | ]. split; [ exact Logic.I | ]. perm.
  - eapply tri_wrap2; [ eapply tri_frame; [ apply (tri_base_move_assign U0 _ _ _ _ _ C C2) | exact P0 ] | ].
    intros a b G (G0 & ([= -> ->] & ->) & ->). eexists. split; [ apply Permutation_refl | ].
    exists (GBase g2), (GBase gbnull). cbn [fst snd fobj]. split; [ exact C2 | ]. split; [ exact cbase_null | ].
    split; [ exact Logic.I | ]. split; [ exact Logic.I | ]. cbn. apply Permutation_refl.
  - eapply tri_wrap2; [ eapply tri_frame; [ apply (tri_cpp_move_assign U0 _ _ _ _ _ C C2) | exact P0 ] | ].
    intros a b G (G0 & ([= -> ->] & ->) & ->). eexists. split; [ apply Permutation_refl | ].
    exists (GBase g2), (GBase gbnull). cbn [fst snd fobj]. split; [ exact C2 | ]. split; [ exact cbase_null | ].
    split; [ exact Hh | ]. split; [ exact Hh | ]. cbn. apply Permutation_refl.
Qed.
