(** Ownership reasoning about the heap model: footprints and triples. *)

From Coq Require Import Ascii String List NArith ZArith Bool Arith Lia Permutation.
From Verif Require Import Base ModelUtil ModelBase64 ModelAddress ModelAttachment ModelMessage ModelHeap ProofText.
Import ListNotations.
Open Scope nat_scope.

Definition foot := list (nat * block).

(** The live blocks are exactly those of [F]. *)
Definition Sat (h : heap) (F : foot) : Prop :=
  Permutation (h_live h) F /\ NoDup (map fst F) /\ Forall (fun x => fst x < h_next h) F.

Lemma Sat_perm : forall h F G, Permutation F G -> Sat h F -> Sat h G.
Proof.
  intros h F G P (A & N & L). repeat split.
  - etransitivity; eauto.
  - eapply Permutation_NoDup; [ apply Permutation_map; exact P | exact N ].
  - eapply Permutation_Forall; eauto.
Qed.

Lemma Sat_empty : Sat empty_heap [].
Proof. repeat split; cbn; constructor. Qed.

Lemma Sat_nil : forall h, Sat h [] -> h_live h = [].
Proof. intros h (A & _). apply Permutation_sym, Permutation_nil in A. exact A. Qed.

Lemma lookup_in : forall l a b, NoDup (map fst l) -> In (a, b) l -> lookup a l = Some b.
Proof.
  induction l as [ | [x c] r IH]; cbn; intros a b N I; [ easy | ].
  inversion N; subst. destruct I as [E | I].
  - injection E as -> ->. now rewrite Nat.eqb_refl.
  - destruct (Nat.eqb_spec a x) as [-> | _].
    + exfalso. apply H1. apply in_map_iff. now exists (x, b).
    + now apply IH.
Qed.

Lemma remove_perm : forall l a b, NoDup (map fst l) -> In (a, b) l -> Permutation l ((a, b) :: remove a l).
Proof.
  induction l as [ | [x c] r IH]; cbn; intros a b N I; [ easy | ].
  inversion N; subst. destruct I as [E | I].
  - injection E as -> ->. now rewrite Nat.eqb_refl.
  - destruct (Nat.eqb_spec a x) as [-> | _].
    + exfalso. apply H1. apply in_map_iff. now exists (x, b).
    + etransitivity; [ apply perm_skip, (IH a b); assumption | apply perm_swap ].
Qed.

Lemma Sat_nodup_live : forall h F, Sat h F -> NoDup (map fst (h_live h)).
Proof.
  intros h F (A & N & _). eapply Permutation_NoDup; [ | exact N ].
  apply Permutation_map. now symmetry.
Qed.

Lemma Sat_lookup : forall h a b F, Sat h ((a, b) :: F) -> lookup a (h_live h) = Some b.
Proof.
  intros h a b F S. apply lookup_in; [ eapply Sat_nodup_live; eauto | ].
  destruct S as (A & _). eapply Permutation_in; [ symmetry; exact A | now left ].
Qed.

Lemma Sat_remove : forall h a b F, Sat h ((a, b) :: F) ->
  Sat (mkHeap (h_next h) (remove a (h_live h))) F.
Proof.
  intros h a b F S. pose proof (Sat_nodup_live _ _ S) as ND.
  destruct S as (A & N & L). repeat split; cbn.
  - apply Permutation_cons_inv with (a := (a, b)). etransitivity; [ | exact A ].
    symmetry. apply remove_perm; [ exact ND | ].
    eapply Permutation_in; [ symmetry; exact A | now left ].
  - inversion N; assumption.
  - inversion L; assumption.
Qed.

Lemma Sat_new : forall h k c F, Sat h F ->
  Sat (mkHeap (S (h_next h)) ((h_next h, mkB k c) :: h_live h)) ((h_next h, mkB k c) :: F).
Proof.
  intros h k c F (A & N & L). repeat split; cbn.
  - now apply perm_skip.
  - constructor; [ | exact N ]. intro I. apply in_map_iff in I as ((x & b) & E & I). cbn in E. subst.
    rewrite Forall_forall in L. specialize (L _ I). cbn in L. lia.
  - constructor; [ cbn; lia | ]. eapply Forall_impl; [ | exact L ]. cbn. lia.
Qed.

Lemma Sat_put : forall h a b c F, Sat h ((a, b) :: F) ->
  Sat (mkHeap (h_next h) ((a, mkB (b_alloc b) c) :: remove a (h_live h))) ((a, mkB (b_alloc b) c) :: F).
Proof.
  intros h a b c F S. pose proof (Sat_remove _ _ _ _ S) as (P & _ & _).
  destruct S as (A & N & L). repeat split; cbn in *.
  - now apply perm_skip.
  - exact N.
  - inversion L; subst. constructor; assumption.
Qed.

(** ** Triples *)

Definition tri {A} (U : ub -> Prop) (E : foot -> Prop) (F : foot) (m : H A)
  (Q : A -> foot -> Prop) : Prop :=
  forall h R, Sat h (F ++ R) ->
  match m h with
  | (Done a, h') => exists F', Q a F' /\ Sat h' (F' ++ R)
  | (Throw, h') => exists F', E F' /\ Sat h' (F' ++ R)
  | (Undef u, _) => U u
  | _ => False
  end.

Lemma tri_pre : forall A U E F G (m : H A) Q,
  Permutation F G -> tri U E G m Q -> tri U E F m Q.
Proof.
  intros A U E F G m Q P T h R S. apply T. eapply Sat_perm; [ | exact S ].
  now apply Permutation_app_tail.
Qed.

Lemma tri_post : forall A U E F (m : H A) Q Q',
  tri U E F m Q -> (forall a G, Q a G -> exists G', Permutation G G' /\ Q' a G') -> tri U E F m Q'.
Proof.
  intros A U E F m Q Q' T I h R S. specialize (T h R S).
  destruct (m h) as [[a | | u | | | ] h']; try exact T.
  destruct T as (G & q & S'). destruct (I a G q) as (G' & P & q').
  exists G'. split; [ exact q' | ]. eapply Sat_perm; [ | exact S' ]. now apply Permutation_app_tail.
Qed.

Lemma tri_seq : forall A C U E F X F0 (m : H A) (k : A -> H C) Q Q',
  tri U (fun _ => False) F m Q ->
  Permutation F0 (F ++ X) ->
  (forall a G, Q a G -> tri U E (G ++ X) (k a) Q') ->
  tri U E F0 (hbind m k) Q'.
Proof.
  intros A C U E F X F0 m k Q Q' T P K h R S. unfold hbind.
  assert (S1 : Sat h (F ++ (X ++ R))).
  { eapply Sat_perm; [ | exact S ]. rewrite app_assoc. now apply Permutation_app_tail. }
  specialize (T h _ S1).
  destruct (m h) as [[a | | u | | | ] h']; try exact T.
  - destruct T as (G & q & S'). rewrite app_assoc in S'. exact (K a G q h' R S').
  - destruct T as (? & [] & _).
Qed.

(** A frame added to a whole triple. *)
Lemma tri_frame : forall A U E F X F0 (m : H A) Q,
  tri U (fun _ => False) F m Q -> Permutation F0 (F ++ X) ->
  tri U E F0 m (fun a G => exists G0, Q a G0 /\ G = G0 ++ X).
Proof.
  intros A U E F X F0 m Q T P h R S.
  assert (S1 : Sat h (F ++ (X ++ R))).
  { eapply Sat_perm; [ | exact S ]. rewrite app_assoc. now apply Permutation_app_tail. }
  specialize (T h _ S1).
  destruct (m h) as [[a | | u | | | ] h']; try exact T.
  - destruct T as (G & q & S'). rewrite app_assoc in S'. exists (G ++ X). split; [ | exact S' ].
    now exists G.
  - destruct T as (? & [] & _).
Qed.

Lemma tri_ret : forall A U E F F' (a : A) (Q : A -> foot -> Prop),
  Permutation F F' -> Q a F' -> tri U E F (hret a) Q.
Proof.
  intros A U E F F' a Q P q h R S. cbn. exists F'. split; [ exact q | ].
  eapply Sat_perm; [ | exact S ]. now apply Permutation_app_tail.
Qed.

Lemma tri_ret_bind : forall A C U E F (a : A) (k : A -> H C) Q,
  tri U E F (k a) Q -> tri U E F (hbind (hret a) k) Q.
Proof. intros A C U E F a k Q T. exact T. Qed.

Lemma tri_assoc : forall A C D U E F (m : H A) (k : A -> H C) (l : C -> H D) Q,
  tri U E F (hbind m (fun x => hbind (k x) l)) Q -> tri U E F (hbind (hbind m k) l) Q.
Proof.
  intros A C D U E F m k l Q T h R S. specialize (T h R S). unfold hbind in *.
  destruct (m h) as [[a | | u | | | ] h']; exact T.
Qed.

Lemma tri_undef : forall A (U : ub -> Prop) E F u Q, U u -> @tri A U E F (hundef u) Q.
Proof. intros A U E F u Q HU h R S. exact HU. Qed.

Lemma tri_throw : forall A U (E : foot -> Prop) F Q, E F -> @tri A U E F (hlift Throw) Q.
Proof. intros A U E F Q e h R S. cbn. now exists F. Qed.

(** A pure computation in front. *)
Lemma tri_lift : forall A C (U : ub -> Prop) (E : foot -> Prop) F (o : outcome A) (k : A -> H C) Q,
  (forall a, o = Done a -> tri U E F (k a) Q) ->
  (o = Throw -> E F) ->
  (forall u, o = Undef u -> U u) ->
  o <> Blocked -> o <> Killed -> o <> Diverge ->
  tri U E F (hbind (hlift o) k) Q.
Proof.
  intros A C U E F o k Q D T X N1 N2 N3 h R S. unfold hbind, hlift.
  destruct o as [a | | u | | | ]; try congruence.
  - apply (D a eq_refl h R S).
  - exists F. split; [ now apply T | exact S ].
  - now apply X.
Qed.

(** Weaker exceptions. *)
Lemma tri_ex : forall A U (E E' : foot -> Prop) F (m : H A) Q,
  tri U E F m Q -> (forall G, E G -> E' G) -> tri U E' F m Q.
Proof.
  intros A U E E' F m Q T I h R S. specialize (T h R S).
  destruct (m h) as [[a | | u | | | ] h']; try exact T.
  destruct T as (G & e & S'). exists G. split; [ now apply I | exact S' ].
Qed.

Lemma tri_ub : forall A (U U' : ub -> Prop) E F (m : H A) Q,
  tri U E F m Q -> (forall u, U u -> U' u) -> tri U' E F m Q.
Proof.
  intros A U U' E F m Q T I h R S. specialize (T h R S).
  destruct (m h) as [[a | | u | | | ] h']; try exact T. now apply I.
Qed.

Lemma tri_last : forall A U E F X F0 (m : H A) Q Q',
  tri U (fun _ => False) F m Q -> Permutation F0 (F ++ X) ->
  (forall a G, Q a G -> exists G', Permutation (G ++ X) G' /\ Q' a G') ->
  tri U E F0 m Q'.
Proof.
  intros A U E F X F0 m Q Q' T P I. eapply tri_post; [ eapply tri_frame; eauto | ].
  intros a G (G0 & q & ->). now apply I.
Qed.

(** ** Permutations of footprints *)

Lemma pull_app : forall (A B L L' : foot), Permutation L (A ++ L') -> Permutation (B ++ L) (A ++ (B ++ L')).
Proof.
  intros A B L L' P. etransitivity; [ apply Permutation_app_head; exact P | ].
  rewrite !app_assoc. apply Permutation_app_tail, Permutation_app_comm.
Qed.
Lemma pull_cons : forall (A : foot) b (L L' : foot), Permutation L (A ++ L') -> Permutation (b :: L) (A ++ (b :: L')).
Proof.
  intros A b L L' P. etransitivity; [ apply perm_skip; exact P | ]. apply Permutation_middle.
Qed.
Lemma pull_end : forall (A : foot), Permutation A (A ++ []).
Proof. intro A. now rewrite app_nil_r. Qed.
Lemma pullc_app : forall a (B L L' : foot), Permutation L (a :: L') -> Permutation (B ++ L) (a :: (B ++ L')).
Proof. intros a B L L' P. exact (pull_app [a] B L L' P). Qed.
Lemma pullc_cons : forall a b (L L' : foot), Permutation L (a :: L') -> Permutation (b :: L) (a :: (b :: L')).
Proof. intros a b L L' P. exact (pull_cons [a] b L L' P). Qed.

Ltac pull A L :=
  lazymatch L with
  | A ++ ?L' => constr:(Permutation_refl L)
  | A => constr:(pull_end A)
  | ?B ++ ?L' => let p := pull A L' in constr:(pull_app A B _ _ p)
  | ?b :: ?L' => let p := pull A L' in constr:(pull_cons A b _ _ p)
  end.
Ltac pullc a L :=
  lazymatch L with
  | a :: ?L' => constr:(Permutation_refl L)
  | ?B ++ ?L' => let p := pullc a L' in constr:(pullc_app a B _ _ p)
  | ?b :: ?L' => let p := pullc a L' in constr:(pullc_cons a b _ _ p)
  end.

Lemma perm_lhs : forall (L L' R : foot), L = L' -> Permutation L' R -> Permutation L R.
Proof. intros; now subst. Qed.
Lemma perm_assoc_r : forall (L A B R : foot), Permutation L (A ++ B ++ R) -> Permutation L ((A ++ B) ++ R).
Proof. intros; now rewrite <- app_assoc. Qed.

Lemma norm_assoc : forall (A B C : foot), (A ++ B) ++ C = A ++ (B ++ C).
Proof. intros; now rewrite app_assoc. Qed.
Lemma norm_nil_r : forall A : foot, A ++ [] = A.
Proof. apply app_nil_r. Qed.
Lemma norm_nil_l : forall A : foot, [] ++ A = A.
Proof. reflexivity. Qed.
Lemma norm_cons : forall x (A B : foot), (x :: A) ++ B = x :: (A ++ B).
Proof. reflexivity. Qed.

Ltac perm_norm_l :=
  eapply perm_lhs; [ repeat first [ rewrite norm_assoc | rewrite norm_nil_r | rewrite norm_nil_l
                                  | rewrite norm_cons ]; reflexivity | ].

Ltac perm_loop :=
  lazymatch goal with
  | |- Permutation ?L ?R =>
      tryif is_evar R then apply Permutation_refl else
      lazymatch R with
      | [] ++ ?R' => change (Permutation L R'); perm_loop
      | (?a :: ?A) ++ ?R' => change (Permutation L (a :: (A ++ R'))); perm_loop
      | (?A ++ ?B) ++ ?R' => apply perm_assoc_r; perm_loop
      | ?A ++ ?R' =>
          let p := pull A L in
          refine (Permutation_trans p _); apply Permutation_app_head; perm_norm_l; perm_loop
      | ?a :: ?R' =>
          let p := pullc a L in
          refine (Permutation_trans p _); apply perm_skip; perm_norm_l; perm_loop
      | [] => apply Permutation_refl
      | ?A => let p := pull A L in refine (Permutation_trans p _); perm_norm_l; apply Permutation_refl
      end
  end.
Ltac perm := perm_norm_l; perm_loop.

(** ** The primitives *)

Lemma tri_new : forall U E k c,
  tri U E [] (h_new k c) (fun p G => exists a, p = Some a /\ G = [(a, mkB k c)]).
Proof.
  intros U E k c h R S. cbn. exists [(h_next h, mkB k c)]. split; [ now exists (h_next h) | ].
  apply Sat_new. exact S.
Qed.

Lemma tri_get : forall U E q a b,
  tri U E [(a, b)] (h_get q (Some a)) (fun c G => c = b_content b /\ G = [(a, b)]).
Proof.
  intros U E q a b h R S. unfold h_get. rewrite (Sat_lookup _ _ _ _ S). exists [(a, b)]. now split.
Qed.

Lemma tri_put : forall U E q a b c,
  tri U E [(a, b)] (h_put q (Some a) c) (fun _ G => G = [(a, mkB (b_alloc b) c)]).
Proof.
  intros U E q a b c h R S. unfold h_put. rewrite (Sat_lookup _ _ _ _ S).
  exists [(a, mkB (b_alloc b) c)]. split; [ reflexivity | ]. apply Sat_put. exact S.
Qed.

Lemma tri_del : forall U E k a c,
  tri U E [(a, mkB k c)] (h_del k (Some a)) (fun _ G => G = []).
Proof.
  intros U E k a c h R S. unfold h_del. rewrite (Sat_lookup _ _ _ _ S). cbn.
  destruct k; (exists []; split; [ reflexivity | ]; eapply Sat_remove; exact S).
Qed.

Lemma tri_del_null : forall U E k, tri U E [] (h_del k None) (fun _ G => G = []).
Proof. intros U E k h R S. cbn. now exists []. Qed.

Lemma tri_get_null : forall (U : ub -> Prop) E q Q, U (UB_NullDeref q) -> tri U E [] (h_get q None) Q.
Proof. intros U E q Q u h R S. exact u. Qed.

(** ** Texts *)

(** The block of a text member whose text is [v] ([None]: null). *)
Definition ftext (p : ptr) (v : option str) : foot :=
  match p, v with Some a, Some s => [(a, mkB Many (Text s))] | _, _ => [] end.
Definition ctext (p : ptr) (v : option str) : Prop :=
  match p, v with Some _, Some _ | None, None => True | _, _ => False end.

Definition nulls (U : ub -> Prop) : Prop := forall q, U (UB_NullDeref q).

Lemma tri_text : forall U E q p v, ctext p v -> v <> None \/ nulls U ->
  tri U E (ftext p v) (h_text q p) (fun s G => v = Some s /\ G = ftext p v).
Proof.
  intros U E q [a | ] [s | ] C N; try easy.
  - cbn. unfold h_text. eapply tri_seq; [ apply (tri_get _ _ q a (mkB Many (Text s))) | perm | ].
    intros c G (-> & ->). cbn. eapply tri_ret; [ perm | auto ].
  - destruct N as [N | N]; [ easy | ]. intros h R S. cbn. apply N.
Qed.

Lemma tri_peek : forall U E p v, ctext p v ->
  tri U E (ftext p v) (peek p) (fun s G => s = v /\ G = ftext p v).
Proof.
  intros U E [a | ] [s | ] C; try easy.
  - unfold peek. eapply tri_seq; [ apply (tri_text U _ PArg (Some a) (Some s) Logic.I); left; discriminate | perm | ].
    intros x G (e & ->). eapply tri_ret; [ perm | ]. now split.
  - cbn. eapply tri_ret; [ perm | now split ].
Qed.

Lemma tri_dup : forall U E s,
  tri U E [] (h_dup s) (fun p G => ctext p (Some s) /\ G = ftext p (Some s)).
Proof.
  intros U E s. eapply tri_post; [ apply tri_new | ]. intros p G (a & -> & ->).
  exists [(a, mkB Many (Text s))]. split; [ perm | ]. now split.
Qed.

Lemma tri_del_text : forall U E p v, ctext p v ->
  tri U E (ftext p v) (h_del Many p) (fun _ G => G = []).
Proof.
  intros U E [a | ] [s | ] C; try easy; cbn.
  - apply tri_del.
  - apply tri_del_null.
Qed.

(** ** Arguments *)

(** The text that the argument [c] designates when the blocks of [F] are
    live. *)
Definition cin (c : cptr) (F : foot) (o : option str) : Prop :=
  match c with
  | CNull => o = None
  | CCaller s => o = Some (cstr s)
  | CInside None => o = None
  | CInside (Some a) => exists s k G, o = Some s /\ Permutation F ((a, mkB k (Text s)) :: G)
  end.

Lemma tri_c_read : forall U E c F o, cin c F o ->
  tri U E F (c_read c) (fun x G => x = o /\ G = F).
Proof.
  intros U E [ | s | [a | ]] F o C; cbn in C; subst; cbn [c_read].
  - eapply tri_ret; [ perm | now split ].
  - eapply tri_ret; [ perm | now split ].
  - destruct C as (s & k & G & -> & P). unfold h_text.
    apply tri_assoc. eapply tri_seq with (F := [(a, mkB k (Text s))]) (X := G); [ apply tri_get | exact P | ].
    intros c X (-> & ->). cbn [b_content].
    apply tri_ret_bind. eapply tri_ret with (F' := F); [ | now split ].
    cbn [app]. now symmetry.
  - eapply tri_ret; [ perm | now split ].
Qed.

Lemma tri_c_dup : forall U E c F o, cin c F o -> o <> None \/ nulls U ->
  tri U E F (c_dup c) (fun p G => exists s, o = Some s /\ ctext p (Some s) /\ G = ftext p (Some s) ++ F).
Proof.
  intros U E c F o C N. unfold c_dup. eapply tri_seq; [ eapply tri_c_read; exact C | perm | ].
  intros x G (-> & ->). destruct o as [s | ].
  - eapply tri_post; [ eapply tri_frame with (F := []); [ apply tri_dup | perm ] | ].
    intros p G (G0 & (Cp & ->) & ->). eexists. split; [ reflexivity | ]. exists s.
    split; [ reflexivity | ]. split; [ exact Cp | ]. reflexivity.
  - apply tri_undef. destruct N as [N | N]; [ easy | apply N ].
Qed.

(** ** MessageAddress *)

Definition vaddr := (option str * option str)%type.
Definition faddr (o : addr_obj) (v : vaddr) : foot := ftext (ao_email o) (fst v) ++ ftext (ao_name o) (snd v).
Definition caddr (o : addr_obj) (v : vaddr) : Prop := ctext (ao_email o) (fst v) /\ ctext (ao_name o) (snd v).
Definition waddr (v : vaddr) : Prop := fst v <> None /\ snd v <> None.

Ltac tstep L := eapply tri_seq; [ eapply L; eauto | perm | ].

Lemma tri_addr_destroy : forall U E o v, caddr o v ->
  tri U E (faddr o v) (addr_destroy o) (fun _ G => G = []).
Proof.
  intros U E o v (C1 & C2). unfold addr_destroy, faddr.
  tstep tri_del_text. intros _ G ->. eapply tri_last; [ eapply tri_del_text; eauto | perm | ].
  intros _ G ->. exists []. split; [ perm | reflexivity ].
Qed.

Lemma tri_addr_copy : forall U E o v, caddr o v -> waddr v \/ nulls U ->
  tri U E (faddr o v) (addr_copy o) (fun o' G => caddr o' v /\ waddr v /\ G = faddr o v ++ faddr o' v).
Proof.
  intros U E o [e n] (C1 & C2) N. unfold addr_copy, faddr in *. cbn [fst snd] in *.
  eapply tri_seq; [ eapply tri_text; [ exact C1 | unfold waddr in N; cbn [fst snd] in N; tauto ] | perm | ].
  intros s G (-> & ->). tstep tri_dup. intros pe G (Ce & ->).
  eapply tri_seq; [ eapply tri_text; [ exact C2 | unfold waddr in N; cbn [fst snd] in N; tauto ] | perm | ].
  intros s' G (-> & ->). tstep tri_dup. intros pn G (Cn & ->).
  eapply tri_ret; [ | split; [ | split; [ | reflexivity ] ] ].
  - cbn [ao_email ao_name]. perm.
  - now split.
  - split; cbn; discriminate.
Qed.


(** The checks either return, throw or meet a byte that isspace rejects. *)
Definition plain_outcome {A} (o : outcome A) : Prop :=
  (exists a, o = Done a) \/ o = Throw \/ o = Undef UB_IsspaceNegative.

Lemma plain_bind : forall A C (o : outcome A) (k : A -> outcome C),
  plain_outcome o -> (forall a, plain_outcome (k a)) -> plain_outcome (obind o k).
Proof.
  intros A C o k [(a & ->) | [-> | ->]] K; cbn; [ apply K | right; now left | right; now right ].
Qed.

Lemma plain_trim : forall s, plain_outcome (trim s).
Proof.
  intro s. destruct (trim_defined s) as [(t & E) | E].
  - left. now exists t.
  - right; right. now destruct E.
Qed.

Lemma plain_null_or_blank : forall p, plain_outcome (null_or_blank p).
Proof.
  intros [s | ]; cbn; [ | left; eauto ].
  destruct (cstr s); [ left; eauto | ].
  apply plain_bind; [ apply plain_trim | ]. intro. left. eauto.
Qed.

Lemma address_new_cases : forall e n,
  (exists x y, e = Some x /\ n = Some y /\ address_new e n = Done (mkAddr (cstr x) (cstr y))) \/
  address_new e n = Throw \/ address_new e n = Undef UB_IsspaceNegative \/
  ((e = None \/ n = None) /\ address_new e n = Undef (UB_NullDeref PArg)).
Proof.
  intros [e | ] n; [ | right; right; right; auto ]. cbn [address_new].
  assert (P : plain_outcome (match cstr e with
             | [] => Done true
             | _ => obind (trim (cstr e)) (fun t => Done (match t with [] => true | _ => false end))
             end)).
  { destruct (cstr e); [ left; eauto | ]. apply plain_bind; [ apply plain_trim | intro; left; eauto ]. }
  destruct P as [(b & ->) | [-> | ->]]; cbn [obind]; [ | auto .. ].
  destruct b; [ auto | ]. destruct (negb _); [ auto | ].
  destruct n as [n | ]; [ left; eauto | right; right; right; auto ].
Qed.

Lemma attachment_new_cases : forall f n c,
  (exists x y z, f = Some x /\ n = Some y /\ c = Some z /\
     attachment_new f n c = Done (mkAtt (cstr y) (cstr x) (cstr z))) \/
  attachment_new f n c = Throw \/ attachment_new f n c = Undef UB_IsspaceNegative \/
  ((f = None \/ n = None \/ c = None) /\ attachment_new f n c = Undef (UB_NullDeref PArg)).
Proof.
  intros [e | ] n c; [ | right; right; right; auto ]. cbn [attachment_new].
  assert (P : plain_outcome (match cstr e with
             | [] => Done true
             | _ => obind (trim (cstr e)) (fun t => Done (match t with [] => true | _ => false end))
             end)).
  { destruct (cstr e); [ left; eauto | ]. apply plain_bind; [ apply plain_trim | intro; left; eauto ]. }
  destruct P as [(b & ->) | [-> | ->]]; cbn [obind]; [ | auto .. ].
  destruct b; [ auto | ].
  destruct n as [n | ]; [ | right; right; right; auto ].
  destruct c as [c | ]; [ left; eauto 10 | right; right; right; auto ].
Qed.

Lemma credential_new_cases : forall u p,
  (exists x y, u = Some x /\ p = Some y /\ credential_new u p = Done (mkCred (cstr x) (cstr y) kImplicit)) \/
  credential_new u p = Throw \/ credential_new u p = Undef UB_IsspaceNegative.
Proof.
  intros u p. unfold credential_new.
  destruct (plain_null_or_blank u) as [(b & E) | [E | E]]; rewrite E; cbn [obind]; [ | auto .. ].
  destruct b; [ auto | ]. destruct p as [p | ]; [ | auto ].
  destruct (cstr p) eqn:Ep; [ auto | ].
  destruct u as [u | ]; [ | cbn in E; discriminate ]. left. rewrite <- Ep. eauto.
Qed.
