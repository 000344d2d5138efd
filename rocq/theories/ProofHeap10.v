(** Ownership: what copies, moves and assignments of messages show. *)

From Coq Require Import Ascii String List NArith ZArith Bool Arith Lia Permutation.
From Verif Require Import Base ModelUtil ModelBase64 ModelAddress ModelAttachment ModelMessage ModelHeap SpecHeap
  ProofText ProofHeap ProofHeap2 ProofHeap3 ProofHeap4 ProofHeap5 ProofHeap6 ProofHeap7 ProofHeap8 ProofHeap9.
Import ListNotations.
Open Scope nat_scope.

Definition view_of (m : msg_obj) (g : gmsg) : msg_view :=
  mkView (g_from g) (view (g_to g)) (mo_nto m) (view (g_cc g)) (mo_ncc m)
    (view (g_bcc g)) (mo_nbcc m) (g_subject g) (g_body g) (view (g_atts g)) (mo_natts m).

Lemma read_at : forall m g h X, cmsg m g -> Sat h (fmsg m g ++ X) -> fst (read_msg m h) = Done (view_of m g).
Proof.
  intros m g h X C S. eapply tri_result; [ | exact S ].
  eapply tri_post; [ apply (tri_read_msg never nothrow m g C) | ].
  intros w G (-> & ->). exists (fmsg m g). split; [ apply Permutation_refl | ]. split; [ reflexivity | exact (eq_refl (fmsg m g)) ].
Qed.

Lemma msg_at : forall l p h i m, along careful l -> hexec l = (Done p, h) -> get i p = OMsg m ->
  exists g X, cmsg m g /\ Sat h (fmsg m g ++ X).
Proof.
  intros l p h i m Ca E Ei. pose proof (run_in_order l Ca) as T. rewrite E in T.
  destruct T as (ps & K & L & -> & (Gd & S) & _).
  destruct (focus1 ps K i _ Gd Ei) as (g & R & C & P & _); [ discriminate | ].
  destruct g as [ | | | g | | ]; cbn in C; try easy. exists g, (R ++ fstore K ++ L). split; [ exact C | ].
  eapply Sat_perm; [ | exact S ]. unfold F0. rewrite P. cbn [fobj]. perm.
Qed.

Lemma msgs_at : forall l p h i j m m2, along careful l -> hexec l = (Done p, h) -> i <> j ->
  get i p = OMsg m -> get j p = OMsg m2 ->
  exists g g2 X, cmsg m g /\ cmsg m2 g2 /\ Sat h ((fmsg m g ++ fmsg m2 g2) ++ X).
Proof.
  intros l p h i j m m2 Ca E N Ei Ej. pose proof (run_in_order l Ca) as T. rewrite E in T.
  destruct T as (ps & K & L & -> & (Gd & S) & _).
  destruct (focus2 ps K i j _ _ Gd N Ei ltac:(discriminate) Ej ltac:(discriminate)) as (g & g2 & R & C & C2 & P & _).
  destruct g as [ | | | g | | ]; cbn in C; try easy. destruct g2 as [ | | | g2 | | ]; cbn in C2; try easy.
  exists g, g2, (R ++ fstore K ++ L). split; [ exact C | ]. split; [ exact C2 | ].
  eapply Sat_perm; [ | exact S ]. unfold F0. rewrite P. cbn [fobj]. perm.
Qed.

Lemma shown_view : forall T V (g : garr T V), shown (view g) = vals g.
Proof. intros T V [[a es] | ]; reflexivity. Qed.

Lemma same_shown : forall m g m' g', same_vals g g' -> mo_nto m' = mo_nto m -> mo_ncc m' = mo_ncc m ->
  mo_nbcc m' = mo_nbcc m -> mo_natts m' = mo_natts m -> same_but_sender (view_of m' g') (view_of m g).
Proof.
  intros m g m' g' (E1 & E2 & E3 & E4 & E5 & E6) N1 N2 N3 N4. unfold same_but_sender, view_of.
  cbn [w_to w_nto w_cc w_ncc w_bcc w_nbcc w_subject w_body w_atts w_natts]. rewrite !shown_view.
  repeat split; assumption.
Qed.

Lemma whole_of : forall T V (W : V -> Prop) n (g : garr T V), whole_list W (view g) n -> warr W n g.
Proof.
  intros T V W n [[a es] | ] H; cbn in H.
  - split; [ now right | exact H ].
  - split; [ now left | constructor ].
Qed.

Lemma whole_wmsg : forall m g, whole_message (view_of m g) -> wmsg m g.
Proof.
  intros m g (W1 & W2 & W3 & W4 & W5 & W6 & W7). constructor; try assumption; now apply whole_of.
Qed.

Lemma push_done : forall A (c : A -> obj) p m h p' h', push p (wrap c m) h = (Done p', h') ->
  exists a, m h = (Done a, h') /\ p' = p ++ [c a].
Proof.
  intros A c p m h p' h' E. unfold push, wrap, hbind, hret in E. destruct (m h) as [[a | | | | | ] h1]; try easy.
  injection E as <- <-. now exists a.
Qed.
Lemma put1_done : forall A (c : A -> obj) p i m h p' h', put1 p i (wrap c m) h = (Done p', h') ->
  exists a, m h = (Done a, h') /\ p' = set i (c a) p.
Proof.
  intros A c p i m h p' h' E. unfold put1, wrap, hbind, hret in E. destruct (m h) as [[a | | | | | ] h1]; try easy.
  injection E as <- <-. now exists a.
Qed.
Lemma put2_done : forall A (c : A -> obj) p i j m h p' h', put2 p i j (wrap2 c m) h = (Done p', h') ->
  exists a b, m h = (Done (a, b), h') /\ p' = set j (c b) (set i (c a) p).
Proof.
  intros A c p i j m h p' h' E. unfold put2, wrap2, hbind, hret in E. destruct (m h) as [[[a b] | | | | | ] h1]; try easy.
  injection E as <- <-. now exists a, b.
Qed.
Lemma get_lt : forall i p, get i p <> OGone -> i < length p.
Proof.
  intros i p N. destruct (Nat.lt_ge_cases i (length p)) as [L | L]; [ exact L | ]. unfold get in N. now rewrite nth_overflow in N.
Qed.
Lemma get_set_same : forall p i x, i < length p -> get i (set i x p) = x.
Proof. induction p as [ | y r IH]; intros [ | i] x L; cbn in *; try lia; [ reflexivity | ]. apply (IH i x). lia. Qed.
Lemma get_set_other : forall p i j x, i <> j -> get i (set j x p) = get i p.
Proof.
  induction p as [ | y r IH]; intros [ | i] [ | j] x N; cbn; try easy. apply (IH i j x). lia.
Qed.
Lemma length_set : forall p i x, length (set i x p) = length p.
Proof. induction p as [ | y r IH]; intros [ | i] x; cbn; auto. Qed.
Lemma get_last : forall p x, get (length p) (p ++ [x]) = x.
Proof. intros p x. unfold get. rewrite app_nth2 by lia. now rewrite Nat.sub_diag. Qed.

Lemma copy_shows : forall l p h i m v p' h', along careful l -> hexec l = (Done p, h) -> get i p = OMsg m ->
  fst (read_msg m h) = Done v -> hstep p (VCopy i) h = (Done p', h') ->
  exists m' v', p' = p ++ [OMsg m'] /\ fst (read_msg m' h') = Done v' /\ same_message v' v /\
    fst (read_msg m h') = Done v.
Proof.
  intros l p h i m v p' h' Ca E Ei Rv Eo. destruct (msg_at l p h i m Ca E Ei) as (g & X & C & S).
  rewrite (read_at m g h X C S) in Rv. injection Rv as <-. cbn [hstep] in Eo. rewrite Ei in Eo.
  apply push_done in Eo as (m' & Em & ->).
  pose proof (tri_msg_copy (fun _ => True) nothrow m g C (or_intror (fun _ => Logic.I)) h X S) as T. rewrite Em in T.
  destruct T as (G & (g' & C' & _ & _ & Ef & Es & N1 & N2 & N3 & N4 & ->) & S').
  exists m', (view_of m' g'). split; [ reflexivity | ]. split; [ | split ].
  - eapply read_at with (X := fmsg m g ++ X); [ exact C' | ]. eapply Sat_perm; [ | exact S' ]. perm.
  - split; [ exact Ef | ]. now apply same_shown.
  - eapply read_at with (X := fmsg m' g' ++ X); [ exact C | ]. eapply Sat_perm; [ | exact S' ]. perm.
Qed.

Lemma copy_defined : forall l p h i m v, along careful l -> hexec l = (Done p, h) -> get i p = OMsg m ->
  fst (read_msg m h) = Done v -> whole_message v -> exists p' h', hstep p (VCopy i) h = (Done p', h').
Proof.
  intros l p h i m v Ca E Ei Rv W. destruct (msg_at l p h i m Ca E Ei) as (g & X & C & S).
  rewrite (read_at m g h X C S) in Rv. injection Rv as <-. cbn [hstep]. rewrite Ei.
  pose proof (tri_msg_copy never nothrow m g C (or_introl (whole_wmsg _ _ W)) h X S) as T.
  unfold push, wrap, hbind, hret. destruct (msg_copy m h) as [[m' | | u | | | ] h']; try easy; [ eauto | ].
  now destruct T as (G & T & _).
Qed.

Lemma assign_shows : forall l p h i j m m2 v v2 p' h', along careful l -> hexec l = (Done p, h) ->
  careful p (VAssign i j) -> i <> j -> get i p = OMsg m -> get j p = OMsg m2 ->
  fst (read_msg m h) = Done v -> fst (read_msg m2 h) = Done v2 ->
  hstep p (VAssign i j) h = (Done p', h') ->
  exists m' v', p' = set i (OMsg m') p /\ get i p' = OMsg m' /\ fst (read_msg m' h') = Done v' /\
    same_but_sender v' v2 /\ w_from v' = w_from v /\ fst (read_msg m2 h') = Done v2.
Proof.
  intros l p h i j m m2 v v2 p' h' Ca E Co N Ei Ej Rv Rv2 Eo.
  destruct (msgs_at l p h i j m m2 Ca E N Ei Ej) as (g & g2 & X & C & C2 & S).
  rewrite (read_at m g h (fmsg m2 g2 ++ X) C) in Rv by (eapply Sat_perm; [ | exact S ]; perm). injection Rv as <-.
  rewrite (read_at m2 g2 h (fmsg m g ++ X) C2) in Rv2 by (eapply Sat_perm; [ | exact S ]; perm). injection Rv2 as <-.
  cbn [hstep] in Eo. apply Nat.eqb_neq in N as Nb. rewrite Nb, Ei, Ej in Eo. apply put1_done in Eo as (m' & Em & ->).
  cbn [careful] in Co. rewrite Ei, Ej in Co. destruct Co as [Co | (R1 & R2 & R3 & R4)]; [ easy | ].
  pose proof (tri_msg_assign (fun _ => True) nothrow m g m2 g2 C C2 (mkRoom _ _ R1 R2 R3 R4) (or_intror (fun _ => Logic.I)) h X S) as T.
  rewrite Em in T. destruct T as (G & (g' & L & C' & Ef & Es & N1 & N2 & N3 & N4 & _ & ->) & S').
  exists m', (view_of m' g'). split; [ reflexivity | ].
  split; [ apply get_set_same, get_lt; now rewrite Ei | ]. split; [ | split; [ | split ] ].
  - eapply read_at with (X := L ++ fmsg m2 g2 ++ X); [ exact C' | ]. eapply Sat_perm; [ | exact S' ]. perm.
  - now apply same_shown.
  - exact Ef.
  - eapply read_at with (X := fmsg m' g' ++ L ++ X); [ exact C2 | ]. eapply Sat_perm; [ | exact S' ]. perm.
Qed.

Lemma assign_defined : forall l p h i j m m2 v v2, along careful l -> hexec l = (Done p, h) ->
  careful p (VAssign i j) -> get i p = OMsg m -> get j p = OMsg m2 ->
  fst (read_msg m h) = Done v -> fst (read_msg m2 h) = Done v2 -> whole_message v -> whole_message v2 ->
  exists p' h', hstep p (VAssign i j) h = (Done p', h').
Proof.
  intros l p h i j m m2 v v2 Ca E Co Ei Ej Rv Rv2 W W2. cbn [hstep]. destruct (Nat.eqb_spec i j) as [ | N]; [ unfold hret; eauto | ].
  destruct (msgs_at l p h i j m m2 Ca E N Ei Ej) as (g & g2 & X & C & C2 & S).
  rewrite (read_at m g h (fmsg m2 g2 ++ X) C) in Rv by (eapply Sat_perm; [ | exact S ]; perm). injection Rv as <-.
  rewrite (read_at m2 g2 h (fmsg m g ++ X) C2) in Rv2 by (eapply Sat_perm; [ | exact S ]; perm). injection Rv2 as <-.
  rewrite Ei, Ej.
  cbn [careful] in Co. rewrite Ei, Ej in Co. destruct Co as [Co | (R1 & R2 & R3 & R4)]; [ easy | ].
  assert (So : sound_arrays m g).
  { apply whole_wmsg in W. destruct W as [_ (A1 & _) (A2 & _) (A3 & _) _ _ (A4 & _)]. now repeat split. }
  pose proof (tri_msg_assign never nothrow m g m2 g2 C C2 (mkRoom _ _ R1 R2 R3 R4) (or_introl (conj So (whole_wmsg _ _ W2))) h X S) as T.
  unfold put1, wrap, hbind, hret. destruct (msg_assign m m2 h) as [[m' | | u | | | ] h']; try easy; [ eauto | ].
  now destruct T as (G & T & _).
Qed.

Lemma move_shows : forall l p h i m v, along careful l -> hexec l = (Done p, h) -> get i p = OMsg m ->
  fst (read_msg m h) = Done v ->
  exists m' r h', hstep p (VMove i) h = (Done (set i (OMsg r) p ++ [OMsg m']), h') /\ fst (read_msg m' h') = Done v.
Proof.
  intros l p h i m v Ca E Ei Rv. exists m, (msg_null addr_null), h. cbn [hstep]. rewrite Ei. split; [ | exact Rv ].
  unfold pushput, wrap2, msg_move, addr_move, hbind, hret. now destruct m.
Qed.

Lemma move_assign_shows : forall l p h i j m m2 v2 p' h', along careful l -> hexec l = (Done p, h) ->
  i <> j -> get i p = OMsg m -> get j p = OMsg m2 -> fst (read_msg m2 h) = Done v2 ->
  hstep p (VMoveAssign i j) h = (Done p', h') ->
  exists m', get i p' = OMsg m' /\ fst (read_msg m' h') = Done v2.
Proof.
  intros l p h i j m m2 v2 p' h' Ca E N Ei Ej Rv2 Eo.
  destruct (msgs_at l p h i j m m2 Ca E N Ei Ej) as (g & g2 & X & C & C2 & S).
  rewrite (read_at m2 g2 h (fmsg m g ++ X) C2) in Rv2 by (eapply Sat_perm; [ | exact S ]; perm). injection Rv2 as <-.
  cbn [hstep] in Eo. apply Nat.eqb_neq in N as Nb. rewrite Nb, Ei, Ej in Eo. apply put2_done in Eo as (m' & r & Em & ->).
  pose proof (tri_msg_move_assign (fun _ => True) nothrow m g m2 g2 C C2 (or_intror (fun _ => Logic.I)) h X S) as T.
  rewrite Em in T. destruct T as (G & (m1 & [= <- ->] & C' & _ & N1 & N2 & N3 & N4 & ->) & S').
  exists m'. split; [ rewrite get_set_other by exact N; apply get_set_same, get_lt; now rewrite Ei | ].
  assert (Ev : view_of m2 g2 = view_of m' g2) by (unfold view_of; now rewrite N1, N2, N3, N4). rewrite Ev.
  eapply read_at; [ exact C' | ]. rewrite <- app_assoc in S'. exact S'.
Qed.

Lemma move_assign_defined : forall l p h i j m m2 v2, along careful l -> hexec l = (Done p, h) ->
  get i p = OMsg m -> get j p = OMsg m2 -> fst (read_msg m2 h) = Done v2 -> whole_addr (w_from v2) ->
  exists p' h', hstep p (VMoveAssign i j) h = (Done p', h').
Proof.
  intros l p h i j m m2 v2 Ca E Ei Ej Rv2 W. cbn [hstep]. destruct (Nat.eqb_spec i j) as [ | N]; [ unfold hret; eauto | ].
  destruct (msgs_at l p h i j m m2 Ca E N Ei Ej) as (g & g2 & X & C & C2 & S).
  rewrite (read_at m2 g2 h (fmsg m g ++ X) C2) in Rv2 by (eapply Sat_perm; [ | exact S ]; perm). injection Rv2 as <-.
  rewrite Ei, Ej. pose proof (tri_msg_move_assign never nothrow m g m2 g2 C C2 (or_introl W) h X S) as T.
  unfold put2, wrap2, hbind, hret. destruct (msg_move_assign m m2 h) as [[[m' r] | | u | | | ] h']; try easy; [ eauto | ].
  now destruct T as (G & T & _).
Qed.

(** ** The constructor *)

Lemma read_addr_at : forall o v h X, caddr o v -> Sat h (faddr o v ++ X) -> fst (read_addr o h) = Done v.
Proof. intros o v h X C S. eapply tri_result; [ apply (tri_read_addr never nothrow o v C) | exact S ]. Qed.
Lemma read_att_at : forall o v h X, catt o v -> Sat h (fatt o v ++ X) -> fst (read_att o h) = Done v.
Proof. intros o v h X C S. eapply tri_result; [ apply (tri_read_att never nothrow o v C) | exact S ]. Qed.

Lemma addrs_shown : forall h P X p l q vs, Sat h (P ++ X) -> addrs_of p l = Some q ->
  Forall2 (within caddr faddr P) q vs -> Forall2 (fun k v => fst (observe (get k p) h) = Done (SAddr v)) l vs.
Proof.
  intros h P X p l. induction l as [ | k r IH]; intros q vs S Eq F; cbn in Eq.
  - injection Eq as <-. inversion F. constructor.
  - destruct (get k p) as [o | | | | | | ] eqn:Ek; try easy. destruct (addrs_of p r) as [q' | ] eqn:Er; [ | easy ].
    injection Eq as <-. inversion F as [ | ? v ? vs' (C & Z & PZ) F' E1 E2]; subst. constructor; [ | now apply (IH q') ].
    rewrite Ek. cbn [observe]. unfold hbind.
    assert (Er' : fst (read_addr o h) = Done v).
    { apply (read_addr_at o v h (Z ++ X) C). eapply Sat_perm; [ | exact S ]. rewrite PZ. perm. }
    destruct (read_addr o h) as [[w | | | | | ] h1]; cbn in Er'; try easy. now injection Er' as ->.
Qed.
Lemma atts_shown : forall h P X p l q vs, Sat h (P ++ X) -> atts_of p l = Some q ->
  Forall2 (within catt fatt P) q vs -> Forall2 (fun k v => fst (observe (get k p) h) = Done (SAtt v)) l vs.
Proof.
  intros h P X p l. induction l as [ | k r IH]; intros q vs S Eq F; cbn in Eq.
  - injection Eq as <-. inversion F. constructor.
  - destruct (get k p) as [ | o | | | | | ] eqn:Ek; try easy. destruct (atts_of p r) as [q' | ] eqn:Er; [ | easy ].
    injection Eq as <-. inversion F as [ | ? v ? vs' (C & Z & PZ) F' E1 E2]; subst. constructor; [ | now apply (IH q') ].
    rewrite Ek. cbn [observe]. unfold hbind.
    assert (Er' : fst (read_att o h) = Done v).
    { apply (read_att_at o v h (Z ++ X) C). eapply Sat_perm; [ | exact S ]. rewrite PZ. perm. }
    destruct (read_att o h) as [[w | | | | | ] h1]; cbn in Er'; try easy. now injection Er' as ->.
Qed.
Lemma addr_array_shown : forall h P X p a q vs, Sat h (P ++ X) -> addr_array p a = Some q ->
  Forall2 (within caddr faddr P) (members q) vs ->
  arr_count q = arr_count a /\ Forall2 (fun k v => fst (observe (get k p) h) = Done (SAddr v)) (members a) vs.
Proof.
  intros h P X p [n | l] q vs S Eq F; cbn in Eq.
  - injection Eq as <-. cbn in F. split; [ reflexivity | ]. inversion F. constructor.
  - destruct (addrs_of p l) as [q' | ] eqn:El; [ | easy ]. injection Eq as <-. cbn in F. split; [ | now apply (addrs_shown h P X p l q') ].
    cbn. clear - El. revert q' El. induction l as [ | k r IH]; intros q' El; cbn in El; [ now injection El as <- | ].
    destruct (get k p); try easy. destruct (addrs_of p r); [ | easy ]. injection El as <-. cbn. f_equal. now apply IH.
Qed.
Lemma att_array_shown : forall h P X p a q vs, Sat h (P ++ X) -> att_array p a = Some q ->
  Forall2 (within catt fatt P) (members q) vs ->
  arr_count q = arr_count a /\ Forall2 (fun k v => fst (observe (get k p) h) = Done (SAtt v)) (members a) vs.
Proof.
  intros h P X p [n | l] q vs S Eq F; cbn in Eq.
  - injection Eq as <-. cbn in F. split; [ reflexivity | ]. inversion F. constructor.
  - destruct (atts_of p l) as [q' | ] eqn:El; [ | easy ]. injection Eq as <-. cbn in F. split; [ | now apply (atts_shown h P X p l q') ].
    cbn. clear - El. revert q' El. induction l as [ | k r IH]; intros q' El; cbn in El; [ now injection El as <- | ].
    destruct (get k p); try easy. destruct (atts_of p r); [ | easy ]. injection El as <-. cbn. f_equal. now apply IH.
Qed.

Lemma read_arg : forall c F v h X, cin c F v -> Sat h (F ++ X) -> fst (c_read c h) = Done v.
Proof. intros c F v h X C S. eapply tri_result; [ eapply (tri_c_read never nothrow); exact C | exact S ]. Qed.

Lemma new_shows : forall l p h f t c d s b a p' h', along careful l -> hexec l = (Done p, h) ->
  careful p (VMsg f t c d s b a) ->
  hstep p (VMsg f t c d s b a) h = (Done p', h') -> p' <> p ->
  exists m v, p' = p ++ [OMsg m] /\ fst (read_msg m h') = Done v /\
    fst (observe (get f p) h) = Done (SAddr (w_from v)) /\
    Forall2 (fun k x => fst (observe (get k p) h) = Done (SAddr x)) (members t) (shown (w_to v)) /\ w_nto v = arr_count t /\
    Forall2 (fun k x => fst (observe (get k p) h) = Done (SAddr x)) (members c) (shown (w_cc v)) /\ w_ncc v = arr_count c /\
    Forall2 (fun k x => fst (observe (get k p) h) = Done (SAddr x)) (members d) (shown (w_bcc v)) /\ w_nbcc v = arr_count d /\
    Forall2 (fun k x => fst (observe (get k p) h) = Done (SAtt x)) (members a) (shown (w_atts v)) /\ w_natts v = arr_count a /\
    fst (c_read (eval p s) h) = Done (w_subject v) /\ fst (c_read (eval p b) h) = Done (w_body v).
Proof.
  intros l p h f t c d s b a p' h' Ca E (Ps & Pb) Eo Np. pose proof (run_in_order l Ca) as T. rewrite E in T.
  destruct T as (ps & K & L & -> & (Gd & S) & _). cbn [hstep] in Eo. set (p := map fst ps) in *.
  assert (Nr : forall h1, (hret p h1 : outcome pool * heap) <> (Done p', h')) by (intros h1; unfold hret; congruence).
  destruct (get f p) as [fo | | | | | | ] eqn:Ef; try (now apply Nr in Eo).
  destruct (addr_array p t) as [t' | ] eqn:Et; [ | now apply Nr in Eo ].
  destruct (addr_array p c) as [c' | ] eqn:Ec; [ | now apply Nr in Eo ].
  destruct (addr_array p d) as [d' | ] eqn:Ed; [ | now apply Nr in Eo ].
  destruct (att_array p a) as [a' | ] eqn:Ea; [ | now apply Nr in Eo ].
  apply push_done in Eo as (m & Em & ->).
  destruct (eval_cin ps K s Gd) as (vs & Cs), (eval_cin ps K b Gd) as (vb & Cb).
  assert (Wf : exists v, within caddr faddr (F0 ps K) fo v).
  { apply (addrs_within ps K [f] [fo] Gd); [ cbn; fold p; now rewrite Ef | now left ]. }
  destruct Wf as (vf & Wf).
  pose proof (tri_msg_new (fun _ => True) nothrow _ fo vf t' c' d' a' _ _ vs vb (fun _ => Logic.I) Wf
    (addr_array_within _ _ _ _ Gd Et) (addr_array_within _ _ _ _ Gd Ec) (addr_array_within _ _ _ _ Gd Ed)
    (att_array_within _ _ _ _ Gd Ea) Cs (present_cin _ _ _ _ Ps Cs) Cb (present_cin _ _ _ _ Pb Cb) h L S) as T.
  unfold p in Em. cbv beta in T.
  rewrite Em in T. destruct T as (G & (g & C & -> & Ev1 & Ev2 & Ev3 & N1 & N2 & N3 & N4 & V1 & V2 & V3 & V4) & S').
  destruct (addr_array_shown h _ L p t t' _ S Et V1) as (Q1 & O1), (addr_array_shown h _ L p c c' _ S Ec V2) as (Q2 & O2),
    (addr_array_shown h _ L p d d' _ S Ed V3) as (Q3 & O3), (att_array_shown h _ L p a a' _ S Ea V4) as (Q4 & O4).
  exists m, (view_of m g). split; [ reflexivity | ]. unfold view_of.
  cbn [w_from w_to w_nto w_cc w_ncc w_bcc w_nbcc w_subject w_body w_atts w_natts]. rewrite !shown_view.
  split; [ eapply read_at with (X := F0 ps K ++ L); [ exact C | eapply Sat_perm; [ | exact S' ]; perm ] | ].
  split.
  { rewrite Ev1. cbn [observe]. destruct Wf as (Cf & Z & PZ).
    assert (Rf : fst (read_addr fo h) = Done vf).
    { apply (read_addr_at fo vf h (Z ++ L) Cf). eapply Sat_perm; [ | exact S ]. rewrite PZ. perm. }
    unfold hbind. destruct (read_addr fo h) as [[w | | | | | ] h1]; cbn in Rf; try easy. now injection Rf as ->. }
  rewrite N1, N2, N3, N4, Q1, Q2, Q3, Q4, Ev2, Ev3. repeat (split; [ first [ exact O1 | exact O2 | exact O3 | exact O4 | reflexivity | exact (read_arg _ _ _ h L Cs S) ] | ]).
  exact (read_arg _ _ _ h L Cb S).
Qed.
