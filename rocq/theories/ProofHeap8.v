(** Ownership: the remaining operations, and whole programs. *)

From Coq Require Import Ascii String List NArith ZArith Bool Arith Lia Permutation.
From Verif Require Import Base ModelUtil ModelBase64 ModelAddress ModelAttachment ModelMessage ModelHeap SpecHeap
  ProofText ProofHeap ProofHeap2 ProofHeap3 ProofHeap4 ProofHeap5 ProofHeap6 ProofHeap7.
Import ListNotations.
Open Scope nat_scope.

(** A computation on the whole pool, given a permuted footprint. *)
Lemma tri_whole : forall A U ps K F (m : H A) Q, Permutation (F0 ps K) F ->
  tri U (E0 ps K) F m Q -> tri U (E0 ps K) (F0 ps K) m Q.
Proof. intros A U ps K F m Q P T. eapply tri_pre; [ exact P | exact T ]. Qed.

Lemma perm_focus : forall ps K f R, Permutation (fpool ps) (f ++ R) ->
  Permutation (F0 ps K) (f ++ R ++ fstore K).
Proof. intros ps K f R P. unfold F0. rewrite P. perm. Qed.

(** A text argument for a setter of object [i]: it comes from elsewhere, or
    from object [i] itself. *)
Lemma eval_cin_setter : forall ps K i x g R a, good ps K -> get i (map fst ps) = x ->
  cobj (x, g) ->
  (forall j, j <> i -> get j (map fst ps) <> OGone ->
     exists gz X, cobj (get j (map fst ps), gz) /\ Permutation R (fobj (get j (map fst ps), gz) ++ X)) ->
  (exists k, a = AGetter i k /\ eval (map fst ps) a = CInside (getter x k)) \/
  exists v, cin (eval (map fst ps) a) (R ++ fstore K) v.
Proof.
  intros ps K i x g R a Gd Ei C Fo. destruct a as [ | s | j k].
  - right. now exists None.
  - right. now exists (Some (cstr s)).
  - destruct (Nat.eq_dec j i) as [-> | Nj]; [ left; exists k; cbn; now rewrite Ei | right ].
    destruct (eval_cin_other ps K i R (AGetter j k) Gd Fo) as (v & Cv); [ congruence | ].
    exists v. now apply cin_app.
Qed.

Lemma step_VSetContentId : forall ps K i c, good ps K ->
  tri U0 (E0 ps K) (F0 ps K) (hstep (map fst ps) (VSetContentId i c)) (left_by ps K (VSetContentId i c)).
Proof.
  intros ps K i c Gd. cbn [hstep].
  destruct (get i (map fst ps)) as [o | o | o | o | o | o | ] eqn:Ei; try (now apply step_same).
  destruct (focus1 ps K i _ Gd Ei) as (g & R & C & P & Fo & Put); [ discriminate | ].
  destruct g as [v | v | v | g | g | ]; cbn in C; try easy.
  eapply step_put1; [ exact Gd | exact Put | now intros k -> | ]. unfold wrap.
  destruct (eval_cin ps K c Gd) as (vc & Cc). cbn [fobj] in P. pose proof (perm_focus ps K _ R P) as P0.
  apply (cin_perm _ _ _ _ P0) in Cc.
  eapply tri_whole; [ exact P0 | ]. eapply tri_wrap; [ apply (tri_setContentId U0 _ o v _ _ _ nulls0 C Cc) | ].
  intros o' G (s & _ & C' & ->). eexists. split; [ apply Permutation_refl | ].
  apply (back_intro ps K i R _ (OAtt o') (GAtt (fst v, Some s)) _ (ftext (to_cid o) (snd v)));
    [ exact Gd | exact C' | exact Logic.I | | easy ].
  cbn [fobj]. perm.
Qed.

Lemma step_VSetUsername : forall ps K i u, good ps K -> careful (map fst ps) (VSetUsername i u) ->
  tri U0 (E0 ps K) (F0 ps K) (hstep (map fst ps) (VSetUsername i u)) (left_by ps K (VSetUsername i u)).
Proof.
  intros ps K i u Gd Ca. cbn [hstep careful] in *.
  destruct (get i (map fst ps)) as [o | o | o | o | o | o | ] eqn:Ei; try (now apply step_same).
  destruct (focus1 ps K i _ Gd Ei) as (g & R & C & P & Fo & Put); [ discriminate | ].
  destruct g as [v | v | v | g | g | ]; cbn in C; try easy.
  eapply step_put1; [ exact Gd | exact Put | now intros k -> | ]. unfold wrap. cbn [fobj] in P.
  pose proof (perm_focus ps K _ R P) as P0.
  assert (Cu : exists vu, cin (eval (map fst ps) u) (ftext (co_pass o) (snd (fst v)) ++ R ++ fstore K) vu).
  { destruct (eval_cin_setter ps K i _ (GCred v) R u Gd Ei C Fo) as [(k & -> & Ek) | (vu & Cu)].
    - rewrite Ek. destruct k as [ | [ | k]]; [ congruence | | now exists None ].
      exists (snd (fst v)). destruct C as (_ & C2 & _). eapply ctext_cin; [ exact C2 | apply Permutation_refl ].
    - exists vu. eapply cin_perm; [ | apply (cin_app _ _ (ftext (co_pass o) (snd (fst v))) _ Cu) ]. perm. }
  destruct Cu as (vu & Cu).
  eapply tri_whole; [ exact P0 | ]. eapply tri_wrap; [ apply (tri_setUsername U0 _ o v _ _ _ okU0 C Cu) | ].
  - unfold E0. now rewrite P0.
  - intros o' G (s & _ & C' & ->). eexists. split; [ apply Permutation_refl | ].
    apply (back_intro ps K i R _ (OCred o') (GCred (Some s, snd (fst v), snd v)) _ []);
      [ exact Gd | exact C' | exact Logic.I | | reflexivity ].
    cbn [fobj]. perm.
Qed.

Lemma step_VSetPassword : forall ps K i u, good ps K -> careful (map fst ps) (VSetPassword i u) ->
  tri U0 (E0 ps K) (F0 ps K) (hstep (map fst ps) (VSetPassword i u)) (left_by ps K (VSetPassword i u)).
Proof.
  intros ps K i u Gd Ca. cbn [hstep careful] in *.
  destruct (get i (map fst ps)) as [o | o | o | o | o | o | ] eqn:Ei; try (now apply step_same).
  destruct (focus1 ps K i _ Gd Ei) as (g & R & C & P & Fo & Put); [ discriminate | ].
  destruct g as [v | v | v | g | g | ]; cbn in C; try easy.
  eapply step_put1; [ exact Gd | exact Put | now intros k -> | ]. unfold wrap. cbn [fobj] in P.
  pose proof (perm_focus ps K _ R P) as P0.
  assert (Cu : exists vu, cin (eval (map fst ps) u) (ftext (co_user o) (fst (fst v)) ++ R ++ fstore K) vu).
  { destruct (eval_cin_setter ps K i _ (GCred v) R u Gd Ei C Fo) as [(k & -> & Ek) | (vu & Cu)].
    - rewrite Ek. destruct k as [ | [ | k]]; [ | congruence | now exists None ].
      exists (fst (fst v)). destruct C as (C2 & _). eapply ctext_cin; [ exact C2 | apply Permutation_refl ].
    - exists vu. eapply cin_perm; [ | apply (cin_app _ _ (ftext (co_user o) (fst (fst v))) _ Cu) ]. perm. }
  destruct Cu as (vu & Cu).
  eapply tri_whole; [ exact P0 | ]. eapply tri_wrap; [ apply (tri_setPassword U0 _ o v _ _ _ okU0 C Cu) | ].
  - unfold E0. now rewrite P0.
  - intros o' G (s & _ & C' & ->). eexists. split; [ apply Permutation_refl | ].
    apply (back_intro ps K i R _ (OCred o') (GCred (fst (fst v), Some s, snd v)) _ []);
      [ exact Gd | exact C' | exact Logic.I | | reflexivity ].
    cbn [fobj]. perm.
Qed.

Lemma step_VSetMethod : forall ps K i m, good ps K ->
  tri U0 (E0 ps K) (F0 ps K) (hstep (map fst ps) (VSetMethod i m)) (left_by ps K (VSetMethod i m)).
Proof.
  intros ps K i m Gd. cbn [hstep].
  destruct (get i (map fst ps)) as [o | o | o | o | o | o | ] eqn:Ei; try (now apply step_same).
  destruct (focus1 ps K i _ Gd Ei) as (g & R & C & P & Fo & Put); [ discriminate | ].
  destruct g as [v | v | v | g | g | ]; cbn in C; try easy.
  eapply step_put1; [ exact Gd | exact Put | now intros k -> | ]. unfold wrap, cred_setMethod. apply tri_ret_bind.
  cbn [fobj] in P. pose proof (perm_focus ps K _ R P) as P0.
  eapply tri_ret; [ exact P0 | ].
  apply (back_intro ps K i R _ (OCred (mkCO (co_user o) (co_pass o) m)) (GCred (fst v, m)) _ []);
    [ exact Gd | | exact Logic.I | | reflexivity ].
  - destruct C as (C1 & C2 & _). now repeat split.
  - cbn [fobj]. unfold fcred. cbn [co_user co_pass fst snd]. perm.
Qed.

Lemma step_VSetServer : forall ps K i u, good ps K -> careful (map fst ps) (VSetServer i u) ->
  tri U0 (E0 ps K) (F0 ps K) (hstep (map fst ps) (VSetServer i u)) (left_by ps K (VSetServer i u)).
Proof.
  intros ps K i u Gd Ca. cbn [hstep careful] in *. pose proof (get_held ps K i Gd) as Hh.
  destruct (get i (map fst ps)) as [o | o | o | o | o | o | ] eqn:Ei; try (now apply step_same).
  all: destruct (focus1 ps K i _ Gd Ei) as (g & R & C & P & Fo & Put); [ discriminate | ].
  all: destruct g as [v | v | v | g | g | ]; cbn in C; try easy.
  all: eapply step_put1; [ exact Gd | exact Put | now intros k -> | ]; unfold wrap; cbn [fobj] in P.
  all: pose proof (perm_focus ps K _ _ P) as P0.
  - assert (Cu : exists vu, cin (eval (map fst ps) u) (fbase_rest o g ++ R ++ fstore K) vu).
    { destruct (eval_cin_setter ps K i _ (GBase g) R u Gd Ei C Fo) as [(k & -> & Ek) | (vu & Cu)].
      - rewrite Ek. destruct k as [ | [ | k]]; [ congruence | | now exists None ].
        cbn [getter]. exists (gb_log g). eapply ctext_cin; [ exact (cb_log _ _ C) | unfold fbase_rest; perm ].
      - exists vu. eapply cin_perm; [ | apply (cin_app _ _ (fbase_rest o g) _ Cu) ]. perm. }
    destruct Cu as (vu & Cu).
    eapply tri_whole; [ exact P0 | ]. eapply tri_wrap; [ apply (tri_setServerName U0 _ o g _ _ _ okU0 C Cu) | ].
    + unfold E0. now rewrite P0.
    + intros o' G (s & _ & _ & C' & ->). eexists. split; [ apply Permutation_refl | ].
      eapply (back_intro ps K i R _ (OBase o') (GBase (mkGB (Some s) (gb_log g) (gb_resp g) (gb_cred g))) _ []);
        [ exact Gd | exact C' | exact Logic.I | | reflexivity ].
      cbn [fobj]. perm.
  - assert (Cu : exists vu, cin (eval (map fst ps) u) (fbase_rest (po_base o) g ++ R ++ fstore K) vu).
    { destruct (eval_cin_setter ps K i _ (GBase g) R u Gd Ei C Fo) as [(k & -> & Ek) | (vu & Cu)].
      - rewrite Ek. destruct k as [ | [ | k]]; [ congruence | | now exists None ].
        cbn [getter]. exists (gb_log g). eapply ctext_cin; [ exact (cb_log _ _ C) | unfold fbase_rest; perm ].
      - exists vu. eapply cin_perm; [ | apply (cin_app _ _ (fbase_rest (po_base o) g) _ Cu) ]. perm. }
    destruct Cu as (vu & Cu).
    eapply tri_whole; [ exact P0 | ]. apply tri_assoc.
    eapply tri_seqE with (X := []); [ apply (tri_setServerName U0 (E0 ps K) (po_base o) g _ _ _ okU0 C Cu) | perm | | ].
    + unfold E0. now rewrite P0.
    + intros G e. now rewrite app_nil_r.
    + intros b G (s & _ & _ & C' & ->). apply tri_ret_bind. eapply tri_ret; [ perm | ].
      eapply (back_intro ps K i R _ (OCpp (mkPO b (po_cred o))) (GBase (mkGB (Some s) (gb_log g) (gb_resp g) (gb_cred g))) _ []);
        [ exact Gd | exact C' | exact Hh | | reflexivity ].
      cbn [fobj po_base]. perm.
Qed.

Lemma step_VTalk : forall ps K i t, good ps K ->
  tri U0 (E0 ps K) (F0 ps K) (hstep (map fst ps) (VTalk i t)) (left_by ps K (VTalk i t)).
Proof.
  intros ps K i t Gd. cbn [hstep]. pose proof (get_held ps K i Gd) as Hh.
  destruct (get i (map fst ps)) as [o | o | o | o | o | o | ] eqn:Ei; try (now apply step_same).
  all: destruct (focus1 ps K i _ Gd Ei) as (g & R & C & P & Fo & Put); [ discriminate | ].
  all: destruct g as [v | v | v | g | g | ]; cbn in C; try easy.
  all: eapply step_put1; [ exact Gd | exact Put | now intros k -> | ]; unfold wrap; cbn [fobj] in P.
  all: pose proof (perm_focus ps K _ _ P) as P0.
  - eapply tri_wrap; [ eapply tri_frame; [ apply (tri_base_talk U0 _ o g t nulls0 C) | exact P0 ] | ].
    intros o' G (G0 & (g' & X & C' & -> & _ & _ & _ & Q) & ->). eexists. split; [ apply Permutation_refl | ].
    eapply (back_intro ps K i R _ (OBase o') (GBase g') _ X); [ exact Gd | exact C' | exact Logic.I | | intros Ti; apply Q; destruct t; (exact Logic.I || exact Ti) ].
    cbn [fobj]. perm.
  - apply tri_assoc. eapply tri_seq; [ apply (tri_base_talk U0 _ (po_base o) g t nulls0 C) | exact P0 | ].
    intros o' G (g' & X & C' & -> & _ & _ & _ & Q). apply tri_ret_bind. eapply tri_ret; [ apply Permutation_refl | ].
    eapply (back_intro ps K i R _ (OCpp (mkPO o' (po_cred o))) (GBase g') _ X); [ exact Gd | exact C' | exact Hh | | intros Ti; apply Q; destruct t; (exact Logic.I || exact Ti) ].
    cbn [fobj po_base]. perm.
Qed.

(** ** Reading and destroying *)

Lemma store_in : forall K a g, In (a, g) K -> exists X, Permutation (fstore K) (fcp (Some a) (Some g) ++ X).
Proof.
  intros K a g I. apply in_split in I as (A & B & ->). exists (fstore A ++ fstore B). unfold fstore. rewrite flat_map_app.
  cbn [flat_map fst snd]. apply Permutation_app_swap_app.
Qed.
Lemma store_ok : forall K a o v, cstore K -> In (a, (o, v)) K -> ccred o v.
Proof. intros K a o v Ck I. exact (proj1 (Forall_forall _ _) Ck _ I). Qed.

Lemma tri_read_pp : forall U E K p, cstore K -> match p with None => True | Some a => exists g, In (a, g) K end ->
  tri U E (fstore K) (match p with
                     | None => hret tt
                     | Some _ => c <~ get_cred p ;; read_cred c ;;~ hret tt
                     end) (fun _ G => G = fstore K).
Proof.
  intros U E K [a | ] Ck Hp.
  - destruct Hp as ([o v] & Hp). destruct (store_in _ _ _ Hp) as (X & PX). pose proof (store_ok _ _ _ _ Ck Hp) as C.
    eapply tri_last; [ apply (tri_read_cp U _ (Some a) (Some (o, v)) C) | exact PX | ].
    intros _ G ->. eexists. split; [ symmetry; exact PX | reflexivity ].
  - eapply tri_ret; [ apply Permutation_refl | reflexivity ].
Qed.

Lemma tri_read_cpp : forall U E o g K, cbase (po_base o) g -> cstore K -> held K (OCpp o) ->
  tri U E (fbase (po_base o) g ++ fstore K) (read_cpp o) (fun _ G => G = fbase (po_base o) g ++ fstore K).
Proof.
  intros U E o g K [] Ck Hh. unfold read_cpp, fbase.
  eapply tri_seq; [ eapply tri_peek; exact cb_server | perm | ]. intros x G (-> & ->).
  eapply tri_seq; [ eapply tri_peek; exact cb_log | perm | ]. intros x G (-> & ->).
  eapply tri_last; [ apply (tri_read_pp _ _ K _ Ck Hh) | perm | ]. intros _ G ->.
  eexists. split; [ | reflexivity ]. perm.
Qed.

Lemma step_VRead : forall ps K i, good ps K ->
  tri U0 (E0 ps K) (F0 ps K) (hstep (map fst ps) (VRead i)) (left_by ps K (VRead i)).
Proof.
  intros ps K i Gd. cbn [hstep]. pose proof (get_held ps K i Gd) as Hh.
  destruct (get i (map fst ps)) as [o | o | o | o | o | o | ] eqn:Ei; cycle -1; [ now apply step_same | .. ].
  all: destruct (focus1 ps K i _ Gd Ei) as (g & R & C & P & Fo & Put); [ discriminate | ].
  all: destruct g as [v | v | v | g | g | ]; cbn in C; try easy.
  all: cbn [fobj] in P; pose proof (perm_focus ps K _ _ P) as P0.
  - eapply tri_seq; [ apply (tri_read_addr U0 _ o v C) | exact P0 | ]. intros x G (-> & ->).
    eapply tri_pre; [ symmetry; exact P0 | now apply step_same ].
  - eapply tri_seq; [ apply (tri_read_att U0 _ o v C) | exact P0 | ]. intros x G (-> & ->).
    eapply tri_pre; [ symmetry; exact P0 | now apply step_same ].
  - eapply tri_seq; [ apply (tri_read_cred U0 _ o v C) | exact P0 | ]. intros x G (-> & ->).
    eapply tri_pre; [ symmetry; exact P0 | now apply step_same ].
  - eapply tri_seq; [ apply (tri_read_msg U0 _ o g C) | exact P0 | ]. intros x G (-> & ->).
    eapply tri_pre; [ symmetry; exact P0 | now apply step_same ].
  - eapply tri_seq; [ apply (tri_read_base U0 _ o g C) | exact P0 | ]. intros x G ->.
    eapply tri_pre; [ symmetry; exact P0 | now apply step_same ].
  - eapply tri_seq with (X := R); [ apply (tri_read_cpp U0 _ o g K C (gd_store _ _ Gd) Hh) | rewrite P0; perm | ]. intros x G ->.
    eapply tri_pre with (G := F0 ps K); [ rewrite P0; perm | now apply step_same ].
Qed.

Lemma step_VDestroy : forall ps K i, good ps K ->
  tri U0 (E0 ps K) (F0 ps K) (hstep (map fst ps) (VDestroy i)) (left_by ps K (VDestroy i)).
Proof.
  intros ps K i Gd. cbn [hstep].
  destruct (get i (map fst ps)) as [o | o | o | o | o | o | ] eqn:Ei; cycle -1; [ now apply step_same | .. ].
  all: destruct (focus1 ps K i _ Gd Ei) as (g & R & C & P & Fo & Put); [ discriminate | ].
  all: destruct g as [v | v | v | g | g | ]; cbn in C; try easy.
  all: cbn [fobj] in P; pose proof (perm_focus ps K _ _ P) as P0.
  all: eapply step_put1; [ exact Gd | exact Put | now intros k -> | ].
  all: assert (Z : forall G, Permutation G (R ++ fstore K) -> back ps K i R (VDestroy i) OGone G)
    by (intros G PG; apply (back_intro ps K i R _ OGone GGone _ []);
        [ exact Gd | exact Logic.I | exact Logic.I | cbn [fobj]; rewrite PG; perm | reflexivity ]).
  - eapply tri_seq; [ apply (tri_addr_destroy U0 _ o v C) | exact P0 | ]. intros x G ->.
    eapply tri_ret; [ apply Permutation_refl | now apply Z ].
  - eapply tri_seq; [ apply (tri_att_destroy U0 _ o v C) | exact P0 | ]. intros x G ->.
    eapply tri_ret; [ apply Permutation_refl | now apply Z ].
  - eapply tri_seq; [ apply (tri_cred_destroy U0 _ o v C) | exact P0 | ]. intros x G ->.
    eapply tri_ret; [ apply Permutation_refl | now apply Z ].
  - eapply tri_seq; [ apply (tri_msg_destroy U0 _ o g C) | exact P0 | ]. intros x G ->.
    eapply tri_ret; [ apply Permutation_refl | now apply Z ].
  - eapply tri_seq; [ apply (tri_base_destroy U0 _ o g C) | exact P0 | ]. intros x G ->.
    eapply tri_ret; [ apply Permutation_refl | now apply Z ].
  - eapply tri_seq; [ apply (tri_base_destroy U0 _ (po_base o) g C) | exact P0 | ]. intros x G ->.
    eapply tri_ret; [ apply Permutation_refl | now apply Z ].
Qed.

(** ** setCredentials *)

Definition never : ub -> Prop := fun _ => False.
Definition nothrow : foot -> Prop := fun _ => False.

Lemma tri_result : forall A (m : H A) F v R h (Q : foot -> Prop),
  tri never nothrow F m (fun x G => x = v /\ Q G) -> Sat h (F ++ R) -> fst (m h) = Done v.
Proof.
  intros A m F v R h Q T S. specialize (T h R S). destruct (m h) as [[a | | u | | | ] h']; try easy; cbn in *.
  - destruct T as (F' & (-> & _) & _). reflexivity.
  - now destruct T as (F' & T & _).
Qed.

Lemma source_spec : forall ps K K1 i R c src, good ps K ->
  (forall j, j <> i -> get j (map fst ps) <> OGone ->
     exists gz X, cobj (get j (map fst ps), gz) /\ Permutation R (fobj (get j (map fst ps), gz) ++ X)) ->
  (forall j x, j <> i -> get j (map fst ps) = OCpp x -> held K1 (OCpp x)) -> cstore K1 ->
  c <> KOfClient i -> (forall o, get i (map fst ps) <> OCred o) ->
  cred_source (map fst ps) c = Some src ->
  forall E, tri U0 E (R ++ fstore K1) src
    (fun o G => G = R ++ fstore K1 /\ (exists v X, ccred o v /\ Permutation (R ++ fstore K1) (fcred o v ++ X)) /\
       forall hp X, Sat hp ((R ++ fstore K1) ++ X) -> fst (src hp) = Done o).
Proof.
  intros ps K K1 i R c src Gd Fo Ho Ck Nc Ni Es E. destruct c as [j | j]; cbn [cred_source] in Es.
  - assert (Nj : j <> i).
    { intros ->. destruct (get i (map fst ps)) eqn:Ei; try easy. now apply (Ni o). }
    specialize (Fo j Nj). destruct (get j (map fst ps)) as [o | o | o | o | o | o | ] eqn:Ej; try easy.
    injection Es as <-. destruct Fo as (g & X & C & P); [ discriminate | ].
    destruct g; cbn in C; try easy. cbn [fobj] in P.
    eapply tri_ret; [ apply Permutation_refl | ]. split; [ reflexivity | ]. split; [ | reflexivity ]. exists v, (X ++ fstore K1). split; [ exact C | ].
    rewrite P. perm.
  - assert (Nj : j <> i) by congruence.
    specialize (Fo j Nj). specialize (Ho j). destruct (get j (map fst ps)) as [o | o | o | o | o | o | ] eqn:Ej; try easy;
    injection Es as <-.
    + destruct Fo as (g & X & C & P); [ discriminate | ]. destruct g as [v | v | v | g | g | ]; cbn in C; try easy.
      cbn [fobj] in P. unfold fbase in P. destruct C as [_ _ _ Cc].
      destruct (bo_cred o) as [a | ].
      2:{ intros h Z S. reflexivity. }
      destruct (gb_cred g) as [[o' v] | ]; [ | easy ]. cbn in Cc. cbn [fcp] in P.
      match type of P with Permutation _ ((?A ++ ?B ++ ?C ++ ?D ++ _) ++ _) =>
        eapply tri_last with (X := fcred o' v ++ A ++ B ++ C ++ D ++ X ++ fstore K1);
          [ apply (get_cred_spec _ _ a o') | rewrite P; perm | ];
        intros x G (-> & ->); exists (R ++ fstore K1); split; [ rewrite P; perm | split; [ reflexivity | split ] ];
        [ exists v, (((a, mkB One (CredObj o')) :: A ++ B ++ C ++ D) ++ X ++ fstore K1); split; [ exact Cc | rewrite P; perm ]
        | intros hp Y S; eapply tri_result with (F := [(a, mkB One (CredObj o'))]) (R := fcred o' v ++ A ++ B ++ C ++ D ++ X ++ fstore K1 ++ Y);
          [ apply (get_cred_spec never nothrow a o') | eapply Sat_perm; [ | exact S ]; rewrite P; perm ] ]
      end.
    + specialize (Ho o Nj eq_refl). cbn in Ho. destruct (po_cred o) as [a | ].
      2:{ intros h Z S. reflexivity. }
      destruct Ho as ([o' v] & Ia). destruct (store_in _ _ _ Ia) as (X & PX). pose proof (store_ok _ _ _ _ Ck Ia) as C.
      cbn [fcp] in PX.
      eapply tri_last with (X := fcred o' v ++ X ++ R); [ apply (get_cred_spec _ _ a o') | rewrite PX; perm | ].
      intros x G (-> & ->). exists (R ++ fstore K1). split; [ rewrite PX; perm | split; [ reflexivity | split ] ].
      * exists v, ((a, mkB One (CredObj o')) :: X ++ R). split; [ exact C | rewrite PX; perm ].
      * intros hp Y S. eapply tri_result with (F := [(a, mkB One (CredObj o'))]) (R := fcred o' v ++ X ++ R ++ Y);
          [ apply (get_cred_spec never nothrow a o') | eapply Sat_perm; [ | exact S ]; rewrite PX; perm ].
Qed.

Lemma tri_cpp_setCredentials : forall o g gc F src Q, cbase (po_base o) g -> ccp (po_cred o) gc ->
  (forall E, tri U0 E F src Q) ->
  (forall x G, Q x G -> exists v X, ccred x v /\ Permutation G (fcred x v ++ X) /\ G = F) ->
  forall E : foot -> Prop, (forall G, Permutation G (fbase (po_base o) g ++ fcp (po_cred o) gc ++ F) -> E G) ->
  tri U0 E (fbase (po_base o) g ++ fcp (po_cred o) gc ++ F) (cpp_setCredentials o src)
    (fun o' G => exists g' k, cbase (po_base o') g' /\ ccp (po_cred o') (Some k) /\
       G = fbase (po_base o') g' ++ fcp (po_cred o') (Some k) ++ F /\ gb_server g' = gb_server g /\ gb_log g' = gb_log g /\
       exists x, Q x F /\ ccred x (snd k) /\ exists X, Permutation F (fcred x (snd k) ++ X)).
Proof.
  intros o g gc F src Q C Cc T I E HE. unfold cpp_setCredentials.
  eapply tri_seq; [ apply T | perm | ]. intros x G q. destruct (I x G q) as (v & X & Cx & Px & ->).
  pose proof Cx as (Cx1 & Cx2 & _).
  eapply tri_seq with (X := ftext (co_pass x) (snd (fst v)) ++ X ++ fbase (po_base o) g ++ fcp (po_cred o) gc);
    [ apply (tri_text U0 _ PArg _ _ Cx1 (or_intror nulls0)) | rewrite Px; unfold fcred; perm | ].
  intros su G (Eu & ->).
  eapply tri_seq with (X := ftext (co_user x) (fst (fst v)) ++ X ++ fbase (po_base o) g ++ fcp (po_cred o) gc);
    [ apply (tri_text U0 _ PArg _ _ Cx2 (or_intror nulls0)) | perm | ].
  intros sw G (Ew & ->).
  eapply tri_pre with (G := fbase (po_base o) g ++ fcp (po_cred o) gc ++ F).
  { rewrite Px. unfold fcred. perm. }
  eapply tri_seqE with (E1 := fun G => G = []) (X := fbase (po_base o) g ++ fcp (po_cred o) gc ++ F);
    [ apply (tri_cred_new U0 (fun G => G = []) [] (CCaller su) (CCaller sw) (Some (cstr su)) (Some (cstr sw)) okU0 eq_refl eq_refl eq_refl)
    | apply Permutation_refl | intros G ->; apply HE; apply Permutation_refl | ].
  intros tmp G (vt & Ct & Wt & -> & _). cbn [app].
  eapply tri_seq; [ apply (tri_base_setCredentials U0 _ (po_base o) g (fcred tmp vt) (hret tmp)
      (fun y G => y = tmp /\ G = fcred tmp vt) nulls0 C) | perm | ].
  { eapply tri_ret; [ apply Permutation_refl | now split ]. }
  { intros y G (-> & ->). exists vt, []. split; [ exact Ct | ]. split; [ now rewrite app_nil_r | reflexivity ]. }
  intros b G (kb & Cb & _ & ->).
  eapply tri_seq; [ apply (tri_cred_destroy U0 _ tmp vt Ct) | perm | ]. intros _ G ->.
  eapply tri_seq; [ apply (tri_delete_cred U0 _ _ gc Cc) | perm | ]. intros _ G ->.
  eapply tri_seq; [ apply (tri_new_cred U0 _ src F Q (T _) I nulls0) | perm | ]. intros p G (k & Ck & (y & vy & Qy & Cy & Ey & _ & Z & PZ) & ->).
  eapply tri_ret; [ | eexists; exists k; split; [ exact Cb | split; [ exact Ck | split; [ reflexivity | ] ] ] ].
  - cbn [po_base po_cred]. perm.
  - split; [ reflexivity | ]. split; [ reflexivity | ]. exists y. rewrite Ey. eauto.
Qed.

Lemma fstore_app : forall A B, fstore (A ++ B) = fstore A ++ fstore B.
Proof. intros. apply flat_map_app. Qed.

(** Taking the credential a client of the string API points to out of the store. *)
Lemma own_cred : forall ps K i o, good ps K -> get i (map fst ps) = OCpp o ->
  (po_cred o <> None -> forall j y, j <> i -> get j (map fst ps) = OCpp y -> po_cred y <> po_cred o) ->
  exists gc K1, ccp (po_cred o) gc /\ cstore K1 /\ Permutation (fstore K) (fcp (po_cred o) gc ++ fstore K1) /\
    (forall j x, j <> i -> get j (map fst ps) = OCpp x -> held K1 (OCpp x)) /\ creds_kept (fun k => k = i) ps K K1.
Proof.
  intros ps K i o Gd Ei Ca. pose proof (get_held ps K i Gd) as Hh. rewrite Ei in Hh. cbn in Hh.
  pose proof (gd_store _ _ Gd) as Ck. destruct (po_cred o) as [a | ] eqn:Ep.
      - destruct Hh as ([oc vc] & Ia). pose proof (store_ok _ _ _ _ Ck Ia) as Cx.
        destruct (in_split _ _ Ia) as (A & B & EK). exists (Some (oc, vc)), (A ++ B). split; [ exact Cx | ].
        split; [ | split; [ | split ] ].
        + rewrite EK in Ck. apply Forall_app in Ck as (Ck1 & Ck2). apply Forall_app. split; [ exact Ck1 | exact (Forall_inv_tail Ck2) ].
        + rewrite EK, !fstore_app. change (fstore ((a, (oc, vc)) :: B)) with (fcp (Some a) (Some (oc, vc)) ++ fstore B).
          apply Permutation_app_swap_app.
        + intros j x Nj Ej. pose proof (others_held ps K i Gd j x Nj Ej) as Hx.
          assert (Na : po_cred x <> Some a) by (apply (Ca ltac:(discriminate) j x Nj Ej)).
          cbn in *. destruct (po_cred x) as [ax | ]; [ | exact Logic.I ]. destruct Hx as (gx & Ix). exists gx.
          rewrite EK in Ix. apply in_app_or in Ix as [Ix | [Ix | Ix]]; [ apply in_or_app; now left | congruence | apply in_or_app; now right ].
        + intros j x b gb Nj Ej Eb Ib. assert (Na : po_cred x <> Some a) by (apply (Ca ltac:(discriminate) j x Nj Ej)).
          rewrite EK in Ib. apply in_app_or in Ib as [Ix | [Ix | Ix]]; [ apply in_or_app; now left | congruence | apply in_or_app; now right ].
      - exists None, K. split; [ exact Logic.I | ]. split; [ exact Ck | ]. split; [ apply Permutation_refl | ].
        split; [ exact (others_held ps K i Gd) | apply creds_refl ].
Qed.

Lemma step_VSetCredentials : forall ps K i c, good ps K -> careful (map fst ps) (VSetCredentials i c) ->
  tri U0 (E0 ps K) (F0 ps K) (hstep (map fst ps) (VSetCredentials i c)) (left_by ps K (VSetCredentials i c)).
Proof.
  intros ps K i c Gd (Nc & Ca). cbn [hstep]. pose proof (get_held ps K i Gd) as Hh.
  destruct (get i (map fst ps)) as [o | o | o | o | o | o | ] eqn:Ei; try (now apply step_same);
  (destruct (cred_source (map fst ps) c) as [src | ] eqn:Es; [ | now apply step_same ]).
  all: assert (Ni : forall z, get i (map fst ps) <> OCred z) by (rewrite Ei; discriminate).
  all: destruct (focus1 ps K i _ Gd Ei) as (g & R & C & P & Fo & Put); [ discriminate | ].
  all: destruct g as [v | v | v | g | g | ]; cbn in C; try easy.
  all: cbn [fobj] in P; pose proof (perm_focus ps K _ _ P) as P0.
  all: eapply step_put1; [ exact Gd | exact Put | now intros k -> | ]; unfold wrap.
  - eapply tri_whole; [ exact P0 | ].
    eapply tri_wrap; [ apply (tri_base_setCredentials U0 _ o g (R ++ fstore K) src _ nulls0 C
        (source_spec ps K K i R c src Gd Fo (others_held ps K i Gd) (gd_store _ _ Gd) Nc Ni Es _)) | ].
    + intros x G (-> & (v & X & Cx & PX) & _). exists v, X. now split.
    + intros o' G (gc & C' & _ & ->). eexists. split; [ apply Permutation_refl | ].
      eapply (back_intro ps K i R _ (OBase o') (GBase (mkGB (gb_server g) (gb_log g) (gb_resp g) (Some gc))) _ []);
        [ exact Gd | exact C' | exact Logic.I | | reflexivity ].
      cbn [fobj]. perm.
  - pose proof (own_cred ps K i o Gd Ei Ca) as Own.
    destruct Own as (gc & K1 & Cc & Ck1 & PK & Ho & Kc).
    assert (P1 : Permutation (F0 ps K) (fbase (po_base o) g ++ fcp (po_cred o) gc ++ R ++ fstore K1)) by (rewrite P0, PK; perm).
    eapply tri_whole; [ exact P1 | ].
    eapply tri_wrap; [ apply (tri_cpp_setCredentials o g gc (R ++ fstore K1) src _ C Cc
        (source_spec ps K K1 i R c src Gd Fo Ho Ck1 Nc Ni Es)) | ].
    + intros x G (-> & (v & X & Cx & PX) & _). exists v, X. now split.
    + intros G PG. unfold E0. now rewrite PG, P1.
    + intros o' G (g' & k & C' & Ck' & -> & _). eexists. split; [ apply Permutation_refl | ].
      destruct (po_cred o') as [a | ] eqn:Ep; [ | easy ].
      exists (GBase g'), ((a, k) :: K1), []. split; [ exact C' | ].
      split; [ constructor; [ cbn; now destruct k | exact Ck1 ] | ].
      split; [ cbn; rewrite Ep; exists k; now left | ]. split; [ | split; [ | split ] ].
      * intros j x Nj Ej. specialize (Ho j x Nj Ej). cbn in *. destruct (po_cred x); [ | exact Logic.I ].
        destruct Ho as (gx & Ix). exists gx. now right.
      * cbn [fobj]. rewrite app_nil_r. change (fstore ((a, k) :: K1)) with (fcp (Some a) (Some k) ++ fstore K1). perm.
      * intros t. cbn [tidy_op] in t. now rewrite Ei in t.
      * intros j x b gb Nj Ej Eb Ib. right. now apply (Kc j x b gb).
Qed.

(** ** Programs *)

Lemma step : forall ps K o, good ps K -> careful (map fst ps) o ->
  tri U0 (E0 ps K) (F0 ps K) (hstep (map fst ps) o) (left_by ps K o).
Proof.
  intros ps K o Gd Ca. destruct o.
  - now apply step_VAddr.
  - now apply step_VAtt.
  - now apply step_VCred.
  - now apply step_VCred3.
  - now apply step_VMsg.
  - now apply step_VBase.
  - now apply step_VCpp.
  - now apply step_VCopy.
  - now apply step_VMove.
  - now apply step_VAssign.
  - now apply step_VMoveAssign.
  - now apply step_VSetContentId.
  - now apply step_VSetUsername.
  - now apply step_VSetPassword.
  - now apply step_VSetMethod.
  - now apply step_VSetServer.
  - now apply step_VSetCredentials.
  - now apply step_VTalk.
  - now apply step_VRead.
  - now apply step_VDestroy.
Qed.

(** The objects of the program and the blocks of the heap correspond. *)
Definition in_order (ps : list (obj * gobj)) (h : heap) (K : store) (L : foot) : Prop :=
  good ps K /\ Sat h (F0 ps K ++ L).

Lemma run_app : forall l1 l2 p h, hrun (l1 ++ l2) p h =
  match hrun l1 p h with (Done p', h') => hrun l2 p' h' | (Throw, h') => (Throw, h') | (Undef u, h') => (Undef u, h')
  | (Blocked, h') => (Blocked, h') | (Killed, h') => (Killed, h') | (Diverge, h') => (Diverge, h') end.
Proof.
  induction l1 as [ | o r IH]; intros l2 p h; [ now destruct (hrun l2 p h) as [[] ?] | ]. cbn.
  destruct (hstep p o h) as [[] ?]; auto.
Qed.

Lemma step_in_order : forall ps h K L o, in_order ps h K L -> careful (map fst ps) o ->
  match hstep (map fst ps) o h with
  | (Done p', h') => exists ps' K' L', p' = map fst ps' /\ in_order ps' h' K' L' /\
      (tidy_op (map fst ps) o -> L' = L /\ K' = K) /\ kept (touches o) ps ps' /\ creds_kept (touches o) ps K K'
  | (Throw, h') => in_order ps h' K L
  | (Undef u, _) => mem_error u = false
  | _ => False
  end.
Proof.
  intros ps h K L o (Gd & S) Ca. pose proof (step ps K o Gd Ca h L S) as T.
  destruct (hstep (map fst ps) o h) as [[p' | | u | | | ] h']; try exact T.
  - destruct T as (G & (ps' & K' & L' & -> & Gd' & -> & Ti & Kp) & S').
    exists ps', K', (L' ++ L). rewrite <- app_assoc in S'. split; [ reflexivity | ]. split; [ now split | ].
    split; [ | exact Kp ]. intros t. destruct (Ti t) as (-> & ->). now split.
  - destruct T as (G & e & S'). split; [ exact Gd | ].
    eapply Sat_perm; [ | exact S' ]. now apply Permutation_app_tail.
Qed.

Lemma gone_in_order : forall ps h K L, in_order ps h K L -> in_order (ps ++ [(OGone, GGone)]) h K L.
Proof.
  intros ps h K L (Gd & S). split; [ now apply good_push | ].
  unfold F0. rewrite fpool_app. cbn. now rewrite app_nil_r.
Qed.

Lemma along_snoc : forall C l o, along C (l ++ [o]) -> along C l.
Proof. intros C l o A l1 x l2 p h E R. apply (A l1 x (l2 ++ [o]) p h); [ | exact R ]. now rewrite E, <- app_assoc. Qed.

Lemma run_in_order : forall l, along careful l ->
  match hexec l with
  | (Done p, h) => exists ps K L, p = map fst ps /\ in_order ps h K L /\ (along tidy_op l -> L = [] /\ K = [])
  | (Undef u, _) => mem_error u = false
  | _ => False
  end.
Proof.
  intros l. induction l as [ | o l IH] using rev_ind; intros Ca.
  - cbn. exists [], [], []. split; [ reflexivity | ]. split; [ | auto ]. split; [ exact good_nil | exact Sat_empty ].
  - specialize (IH (along_snoc _ _ _ Ca)). unfold hexec in *. rewrite run_app.
    destruct (hrun l [] empty_heap) as [[p | | u | | | ] h] eqn:El; try exact IH.
    destruct IH as (ps & K & L & -> & Io & Ti). cbn.
    pose proof (step_in_order ps h K L o Io (Ca l o [] _ h eq_refl El)) as T.
    destruct (hstep (map fst ps) o h) as [[p' | | u | | | ] h'] eqn:Eo; try exact T.
    + destruct T as (ps' & K' & L' & -> & Io' & T & _ & _). exists ps', K', L'. split; [ reflexivity | ]. split; [ exact Io' | ].
      intros t. destruct (Ti (along_snoc _ _ _ t)) as (-> & ->). exact (T (t l o [] _ h eq_refl El)).
    + destruct (is_ctor o).
      * exists (ps ++ [(OGone, GGone)]), K, L. rewrite map_app. split; [ reflexivity | ].
        split; [ now apply gone_in_order | ]. intros t. exact (Ti (along_snoc _ _ _ t)).
      * exists ps, K, L. split; [ reflexivity | ]. split; [ exact T | ]. intros t. exact (Ti (along_snoc _ _ _ t)).
Qed.
