(** Running out of memory: programs that lose nothing, and examples. *)

From Coq Require Import Ascii String List NArith ZArith Bool Arith Lia Permutation.
From Verif Require Import Base ModelUtil ModelBase64 ModelAddress ModelAttachment ModelMessage ModelReply ModelHeap ModelScarce
  SpecHeap SpecScarce ProofText ProofHeap ProofHeap3 ProofHeap5 ProofHeap6 ProofHeap7 ProofHeap8 ProofHeap9 ProofHeap11 ProofHeap12
  ProofScarce ProofScarce2 ProofScarce3 ProofScarce4 ProofScarce5.
Import ListNotations.
Open Scope nat_scope.

(** ** Nothing is lost *)

Definition harmless {T A} (m : Mem T A) : Prop := forall q h t h', m q h = (NoMemory t, h') -> h' = h.
Definition quiet {A} (m : H A) : Prop := forall h, snd (m h) = h.

Lemma harmless_bind_quiet : forall T A C (m : H A) (k : A -> Mem T C), quiet m -> (forall a, harmless (k a)) -> harmless (mbind (lift m) k).
Proof.
  intros T A C m k Q K q h t h' E. unfold mbind, lift in E. specialize (Q h). destruct (m h) as [[a | | | | | ] h1]; try discriminate.
  cbn in Q. subst h1. exact (K a q h t h' E).
Qed.
Lemma harmless_lift : forall T A (m : H A), @harmless T A (lift m).
Proof. intros T A m q h t h' E. destruct (solid_lift T A m q h t h' E). Qed.
Lemma harmless_dup : forall T (t : T) s, harmless (m_dup t s).
Proof. intros T t s [[ | k] | ] h t' h' E; cbn in E; now inversion E. Qed.
Lemma harmless_bind_solid : forall T A C (m : Mem T A) (k : A -> Mem T C), harmless m -> (forall a, solid (k a)) -> harmless (mbind m k).
Proof.
  intros T A C m k G K q h t h' E. unfold mbind in E. destruct (m q h) as [[[a | | | | | ] q' | x | ] h1] eqn:Em; try discriminate.
  - destruct (K a q' h1 t h' E).
  - inversion E; subst. now apply (G q h t).
Qed.
Lemma harmless_during : forall T T' A (g : T -> T') (m : Mem T A), harmless m -> harmless (during g m).
Proof.
  intros T T' A g m G q h t h' E. unfold during in E. destruct (m q h) as [[o q' | x | ] h1] eqn:Em; try discriminate.
  inversion E; subst. now apply (G q h x).
Qed.
Lemma solid_ret : forall T A (a : A), @solid T A (mret a).
Proof. now intros T A a q h t h'. Qed.

Lemma quiet_c_read : forall c, quiet (c_read c).
Proof.
  intros [ | s | [a | ]] h; try reflexivity. cbn. unfold h_text, h_get, hbind. destruct (lookup a (h_live h)) as [[k c] | ]; [ | reflexivity ].
  now destruct c.
Qed.
Lemma quiet_text : forall q p, quiet (h_text q p).
Proof.
  intros q [a | ] h; try reflexivity. unfold h_text, h_get, hbind. destruct (lookup a (h_live h)) as [[k c] | ]; [ | reflexivity ]. now destruct c.
Qed.
Lemma quiet_lift : forall A (o : outcome A), quiet (hlift o).
Proof. now intros A o h. Qed.
Lemma harmless_c_dup : forall T (t : T) c, harmless (m_c_dup t c).
Proof.
  intros T t c. unfold m_c_dup. apply harmless_bind_quiet; [ apply quiet_c_read | ]. intros [s | ]; [ apply harmless_dup | apply harmless_lift ].
Qed.

Lemma harmless_base_new : forall s, harmless (m_base_new s).
Proof.
  intros s. unfold m_base_new. apply harmless_bind_quiet; [ apply quiet_c_read | ]. intros o. apply harmless_bind_quiet; [ apply quiet_lift | ].
  intros [ | ]; [ apply harmless_lift | ]. apply harmless_bind_solid; [ apply harmless_c_dup | ]. intros. apply solid_ret.
Qed.
Lemma harmless_setContentId : forall o c, harmless (m_att_setContentId o c).
Proof. intros o c. unfold m_att_setContentId. apply harmless_bind_solid; [ apply harmless_c_dup | ]. intros. apply solid_ret. Qed.
Lemma harmless_log : forall o g s, harmless (m_base_talk o (TLog g s)).
Proof.
  intros o g s. cbn [m_base_talk]. apply harmless_bind_quiet; [ apply quiet_text | ]. intros _. destruct g.
  - apply harmless_bind_solid; [ apply harmless_dup | ]. intros p. apply solid_bind; [ apply solid_lift | intros; apply solid_ret ].
  - intros q h t h' E. exfalso. revert E. apply solid_bind; [ apply solid_lift | intros; apply solid_ret ].
Qed.

Lemma single_harmless : forall p o, single o -> harmless (m_step p o).
Proof.
  intros p o Si.
  assert (Ret : harmless (@mret pool pool p)) by (intros q h t h' E; discriminate).
  destruct o as [ | | | | | s | s | | | | | i c | | | | | | i t | | ]; try easy; cbn [m_step].
  - apply harmless_bind_solid; [ apply harmless_during, harmless_base_new | intros; apply solid_ret ].
  - apply harmless_bind_solid; [ | intros; apply solid_ret ]. apply harmless_during, harmless_bind_solid; [ apply harmless_base_new | intros; apply solid_ret ].
  - destruct (get i p); try exact Ret. apply harmless_bind_solid; [ apply harmless_during, harmless_setContentId | intros; apply solid_ret ].
  - destruct t as [ | g s | | ]; try easy. destruct (get i p); try exact Ret; (apply harmless_bind_solid; [ apply harmless_during | intros; apply solid_ret ]).
    + apply harmless_log.
    + apply harmless_bind_solid; [ apply harmless_during, harmless_log | intros; apply solid_ret ].
Qed.
Lemma single_firm : forall p o, single o -> firm p o.
Proof. intros p o Si. destruct o as [ | | | | | | | | | | | | | | | | | i t | | ]; try easy. now destruct t. Qed.

Definition tight (p : pool) (h : heap) : Prop := exists ps, p = map fst ps /\ in_order ps h [] [].

Lemma thrifty_in_order : forall l, along_scarce prudent l -> along_scarce thrifty l ->
  match m_exec l with (Done p, h) => tight p h | _ => True end.
Proof.
  intros l. induction l as [ | [o q] l IH] using rev_ind; intros Ca Ct.
  - cbn. exists []. split; [ reflexivity | ]. split; [ exact good_nil | exact Sat_empty ].
  - specialize (IH (along_scarce_snoc _ _ _ Ca) (along_scarce_snoc _ _ _ Ct)). unfold m_exec in *. rewrite m_run_app.
    destruct (m_run l [] empty_heap) as [[p | | u | | | ] h] eqn:El; try exact IH.
    destruct IH as (ps & -> & Io). destruct (Ca l o q [] _ h eq_refl El) as (Co & _). destruct (Ct l o q [] _ h eq_refl El) as (Ti & Si). cbn [m_run].
    pose proof (step_in_order ps h [] [] o Io Co) as T. pose proof (step_rcut ps h [] [] o Io q) as R.
    destruct (m_step (map fst ps) o q h) as [[r q' | p' | ] h'] eqn:Em; [ | | exact Logic.I ].
    + destruct R as (R & _). rewrite R in T. destruct r as [p' | | u | | | ]; try exact Logic.I.
      * destruct T as (ps' & K' & L' & -> & Io' & Te & _). destruct (Te Ti) as (-> & ->). exists ps'. now split.
      * destruct (is_ctor o).
        -- exists (ps ++ [(OGone, GGone)]). rewrite map_app. split; [ reflexivity | now apply gone_in_order ].
        -- exists ps. now split.
    + assert (So : single o) by (apply Si; left; now exists p', h').
      rewrite (single_harmless _ _ So _ _ _ _ Em). destruct (firm_left _ _ _ _ _ _ (single_firm _ _ So) Em) as [-> | ->]; [ exists ps; now split | ].
      exists (ps ++ [(OGone, GGone)]). rewrite map_app. split; [ reflexivity | now apply gone_in_order ].
Qed.

Lemma thrifty_clean : forall l p h, along_scarce prudent l -> along_scarce thrifty l -> m_exec l = (Done p, h) -> all_destroyed p -> h_live h = [].
Proof.
  intros l p h Ca Ct E A. pose proof (thrifty_in_order l Ca Ct) as T. rewrite E in T. destruct T as (ps & -> & Gd & S).
  apply Sat_nil. eapply Sat_perm; [ | exact S ]. unfold F0. cbn. rewrite !app_nil_r.
  replace (fpool ps) with (@nil (nat * block)); [ reflexivity | ]. symmetry.
  assert (X : forall x, In x ps -> fobj x = []).
  { intros [o g] I. apply In_nth_error in I as (k & Ek). pose proof (nth_get _ _ _ _ Ek) as G. rewrite A in G. subst o. now destruct g. }
  clear - X. induction ps as [ | x r IH]; [ reflexivity | ]. cbn. rewrite X by now left. apply IH. intros y I. apply X. now right.
Qed.

(** ** Examples *)

Fixpoint scarce_checked (C : pool -> hop -> quota -> heap -> Prop) (l : list (hop * quota)) (p : pool) (h : heap) : Prop :=
  match l with
  | [] => True
  | (o, q) :: r => C p o q h /\ match m_run [(o, q)] p h with (Done p', h') => scarce_checked C r p' h' | _ => True end
  end.
Lemma scarce_checked_along : forall C l, scarce_checked C l [] empty_heap -> along_scarce C l.
Proof.
  intros C l. unfold along_scarce, m_exec. generalize (@nil obj) empty_heap. induction l as [ | [o q] r IH]; intros p h Ch l1 o' q' l2 p' h' E R.
  - destruct l1; discriminate.
  - destruct Ch as (Co & Cr). destruct l1 as [ | x l1].
    + injection E as -> -> ->. cbn in R. now injection R as <- <-.
    + injection E as <- ->. change ((o, q) :: l1) with ([(o, q)] ++ l1) in R. rewrite m_run_app in R.
      destruct (m_run [(o, q)] p h) as [[p1 | | | | | ] h1]; try discriminate. exact (IH p1 h1 Cr l1 o' q' l2 p' h' eq_refl R).
Qed.

Ltac scarce_check :=
  apply scarce_checked_along; vm_compute;
  repeat match goal with |- _ /\ _ => split | |- True => exact Logic.I end;
  try discriminate; try (intros N; now destruct N);
  try (intros [(? & ? & N) | (? & N)]; discriminate N);
  try (right; repeat split; discriminate || (intros; discriminate));
  try (intros _; exact Logic.I).

Definition ample (l : list hop) : list (hop * quota) := map (fun o => (o, None)) l.

(** Each of these programs runs out of memory in its last operation but one,
    and destroys the object concerned. *)
Definition ann : hop := VAddr (ACaller (B "ann@example.org")) (ACaller (B "Ann")).
Definition bob : hop := VAddr (ACaller (B "bob@example.org")) (ACaller (B "Bob")).
Definition att1 : hop := VAtt (ACaller (B "/tmp/a.txt")) (ACaller (B "a.txt")) (ACaller (B "")).
Definition cred1 : hop := VCred (ACaller (B "user")) (ACaller (B "secret")).
Definition mail1 : hop := VMsg 0 (AArr [0]) (ANull 0) (ANull 0) (ACaller (B "Hello")) (ACaller (B "Text")) (ANull 0).
Definition client1 : hop := VBase (ACaller (B "mail.example.org")).
Definition broken : list (list hop * hop * nat) :=
  [ ([ann; bob], VAssign 0 1, 0);
    ([att1; att1], VAssign 0 1, 0);
    ([cred1; cred1], VAssign 0 1, 0);
    ([ann; mail1; mail1], VAssign 1 2, 1);
    ([client1; client1], VAssign 0 1, 0);
    ([VCpp (ACaller (B "mail")); VCpp (ACaller (B "mail"))], VAssign 0 1, 0);
    ([cred1], VSetUsername 0 (ACaller (B "other")), 0);
    ([cred1], VSetPassword 0 (ACaller (B "other")), 0);
    ([client1], VSetServer 0 (ACaller (B "other")), 0);
    ([client1; cred1; VSetCredentials 0 (KObject 1)], VSetCredentials 0 (KObject 1), 0);
    ([client1; VTalk 0 TStart], VTalk 0 TStart, 0);
    ([client1; VTalk 0 (TAnswer (B "250 ok"))], VTalk 0 (TAnswer (B "250 ok")), 0) ].

Lemma broken_destruction : forall l o i, In (l, o, i) broken ->
  along_scarce (fun p o _ _ => careful p o) (ample l ++ [(o, Some 0); (VDestroy i, None)]) /\
  (exists p, fst (hexec (l ++ [o; VDestroy i])) = Done p) /\
  fst (m_exec (ample l ++ [(o, Some 0); (VDestroy i, None)])) = Undef UB_DoubleFree.
Proof.
  intros l o i I. unfold broken in I. cbn [In] in I.
  repeat (destruct I as [I | I]; [ injection I as <- <- <-; split; [ scarce_check | split; [ eexists; vm_compute; reflexivity | vm_compute; reflexivity ] ] | ]).
  easy.
Qed.

Lemma move_kills : exists l, along_scarce (fun p o _ _ => careful p o) l /\ fst (m_exec l) = Killed /\
  l = ample [ann; mail1; mail1] ++ [(VMoveAssign 1 2, Some 0)].
Proof. eexists. split; [ | split; [ | reflexivity ] ]; [ scarce_check | vm_compute; reflexivity ]. Qed.

Lemma constructor_leaks : exists l p h, along_scarce prudent l /\ m_exec l = (Done p, h) /\ all_destroyed p /\ length (h_live h) = 1 /\
  l = [(ann, Some 1)].
Proof.
  eexists _, _, _. split; [ | split; [ | split; [ | split; [ | reflexivity ] ] ] ].
  - scarce_check.
  - vm_compute. reflexivity.
  - now intros [ | [ | i]].
  - reflexivity.
Qed.

(** Everything fails once, nothing is damaged. *)
Definition lean_tour : list (hop * quota) :=
  ample start ++
  [ (VCopy 4, Some 0); (VCopy 4, Some 1); (VCopy 4, Some 9); (VCopy 5, Some 0); (VSetContentId 2 (ACaller (B "cid")), Some 0);
    (VTalk 5 TStart, None); (VTalk 5 (TLog true (B "log")), Some 0); (VTalk 5 (TAuth second_line), Some 1);
    (VMsg 0 (AArr [1; 0]) (AArr [0]) (ANull 0) (ACaller (B "Hello")) (ACaller (B "Text")) (AArr [2]), Some 12);
    (VCred (ACaller (B "u")) (ACaller (B "p")), Some 1); (VCopy 4, None); (VRead 4, None); (VRead 5, None); (VRead 13, None);
    (VDestroy 4, None); (VDestroy 5, None) ].
Lemma lean_tour_prudent : along_scarce prudent lean_tour.
Proof. unfold lean_tour, ample, start. scarce_check. Qed.

Definition lean_life : list (hop * quota) :=
  [ (client1, None); (client1, Some 0); (att1, None); (VTalk 0 TStart, None); (VTalk 0 (TLog true (B "log")), Some 0);
    (VTalk 0 (TLog true (B "log")), None); (VTalk 0 (TLog true (B "log log")), Some 0); (VCopy 0, None);
    (VDestroy 0, None); (VDestroy 2, None); (VDestroy 3, None) ].
Lemma lean_life_prudent : along_scarce prudent lean_life.
Proof. unfold lean_life. scarce_check. Qed.
Lemma lean_life_thrifty : along_scarce thrifty lean_life.
Proof. unfold lean_life. scarce_check. Qed.
