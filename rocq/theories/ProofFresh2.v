(** What a new message shows, in every program. *)

From Coq Require Import Ascii String List NArith ZArith Bool Arith Lia.
From Verif Require Import Base ModelUtil ModelBase64 ModelAddress ModelAttachment ModelMessage ModelReply ModelHeap SpecHeap
  ModelScarce ProofScarce ProofScarce2 ProofScarce3 ProofFresh.
Import ListNotations.
Open Scope nat_scope.

(** ** Code that only reads *)

Definition reads {A} (m : H A) (h : heap) (v : A) : Prop := m h = (Done v, h).
Lemma reads_bind {A C} (m : H A) (k : A -> H C) h a v : reads m h a -> reads (k a) h v -> reads (hbind m k) h v.
Proof. unfold reads, hbind. now intros ->. Qed.
Lemma text_reads q p h : forall o h', h_text q p h = (o, h') -> h' = h.
Proof.
  intros o h' E. unfold h_text, hbind, h_get in E. destruct p as [a|]; [|now injection E as <- <-].
  destruct (lookup a (h_live h)) as [b|]; [|now injection E as <- <-]. destruct (b_content b); now injection E as <- <-.
Qed.
Lemma text_inv q p h s h' : h_text q p h = (Done s, h') -> h' = h /\ exists a k, p = Some a /\ lookup a (h_live h) = Some (mkB k (Text s)).
Proof.
  intros E. pose proof (text_reads q p h _ _ E) as ->. split; [reflexivity|]. unfold h_text, hbind, h_get in E. destruct p as [a|]; [|discriminate].
  destruct (lookup a (h_live h)) as [[k c]|] eqn:L; [|discriminate]. cbn in E. destruct c; try discriminate. injection E as ->. now exists a, k.
Qed.
Lemma text_at q a k s h : lookup a (h_live h) = Some (mkB k (Text s)) -> reads (h_text q (Some a)) h s.
Proof. intros L. unfold reads, h_text, hbind, h_get. now rewrite L. Qed.
Lemma peek_at a k s h : lookup a (h_live h) = Some (mkB k (Text s)) -> reads (peek (Some a)) h (Some s).
Proof. intros L. unfold peek. eapply reads_bind; [eapply text_at; exact L|reflexivity]. Qed.

(** [h'] has all blocks of [h] (apart from arrays, for [kept]). *)
Definition kept (h h' : heap) : Prop := forall a b, lookup a (h_live h) = Some b -> (forall l, b_content b <> Cells l) -> lookup a (h_live h') = Some b.
Definition all_kept (h h' : heap) : Prop := forall a b, lookup a (h_live h) = Some b -> lookup a (h_live h') = Some b.
Lemma all_kept_kept h h' : all_kept h h' -> kept h h'.
Proof. intros K a b L _. auto. Qed.
Lemma all_kept_trans h1 h2 h3 : all_kept h1 h2 -> all_kept h2 h3 -> all_kept h1 h3.
Proof. intros K1 K2 a b L. auto. Qed.
Lemma kept_trans h1 h2 h3 : kept h1 h2 -> kept h2 h3 -> kept h1 h3.
Proof. intros K1 K2 a b L N. auto. Qed.

(** Below [n], [h'] has the blocks of [h] and no others. *)
Definition same_below (n : nat) (h h' : heap) : Prop := forall a, a < n -> lookup a (h_live h') = lookup a (h_live h).
Lemma lookup_below a b h : wfh h -> lookup a (h_live h) = Some b -> a < h_next h.
Proof. intros [_ F] L. apply ProofFresh.lookup_in in L. rewrite Forall_forall in F. exact (F _ L). Qed.
Definition grown (h h' : heap) : Prop := wfh h' /\ h_next h <= h_next h' /\ same_below (h_next h) h h' /\ all_kept h h'.
Lemma gentle_grown {A} (m : H A) h o h' : (forall n, gentle n m) -> wfh h -> m h = (o, h') -> grown h h'.
Proof.
  intros G W E. destruct (G (h_next h) h W (Nat.le_refl _)) as (W' & L & K & S). rewrite E in *. cbn [snd] in *.
  split; [exact W'|]. split; [exact L|]. split.
  - intros a La. destruct (lookup a (h_live h)) as [b|] eqn:E1; [now apply K|]. destruct (lookup a (h_live h')) as [b|] eqn:E2; [|reflexivity].
    specialize (S a b La E2). congruence.
  - intros a b Lb. apply K; [|exact Lb]. now apply (lookup_below a b).
Qed.
Lemma grown_refl h : wfh h -> grown h h.
Proof. intros W. split; [exact W|]. split; [lia|]. split; [now intros a|now intros a b]. Qed.
Lemma grown_trans h1 h2 h3 : grown h1 h2 -> grown h2 h3 -> grown h1 h3.
Proof.
  intros (W2 & L2 & S2 & K2) (W3 & L3 & S3 & K3). split; [exact W3|]. split; [lia|]. split; [|now apply (all_kept_trans _ h2)].
  intros a La. rewrite S3 by lia. auto.
Qed.

(** Code whose result does not change when blocks are added. *)
Definition lasting {A} (m : H A) : Prop := forall h h' v, kept h h' -> reads m h v -> reads m h' v.
Definition lasting_all {A} (m : H A) : Prop := forall h h' v, all_kept h h' -> reads m h v -> reads m h' v.
(** Code that leaves the heap as it is. *)
Definition reader {A} (m : H A) : Prop := forall h, snd (m h) = h.
Lemma reader_bind {A C} (m : H A) (k : A -> H C) : reader m -> (forall a, reader (k a)) -> reader (hbind m k).
Proof. intros R K h. unfold hbind. pose proof (R h) as E. destruct (m h) as [[a| | | | |] h1]; cbn in E; subst; first [apply K|reflexivity]. Qed.
Lemma reads_split {A C} (m : H A) (k : A -> H C) h v : reader m -> reads (hbind m k) h v -> exists a, reads m h a /\ reads (k a) h v.
Proof.
  intros R E. unfold reads, hbind in *. pose proof (R h) as S. destruct (m h) as [[a| | | | |] h1]; cbn in S; subst; try discriminate. now exists a.
Qed.
Lemma lasting_bind {A C} (m : H A) (k : A -> H C) : reader m -> lasting m -> (forall a, lasting (k a)) -> lasting (hbind m k).
Proof. intros R L K h h' v Q E. apply reads_split in E as (a & E1 & E2); [|exact R]. eapply reads_bind; [eapply L; eauto|eapply K; eauto]. Qed.
Lemma lasting_all_bind {A C} (m : H A) (k : A -> H C) : reader m -> lasting_all m -> (forall a, lasting_all (k a)) -> lasting_all (hbind m k).
Proof. intros R L K h h' v Q E. apply reads_split in E as (a & E1 & E2); [|exact R]. eapply reads_bind; [eapply L; eauto|eapply K; eauto]. Qed.
Lemma lasting_lasting_all {A} (m : H A) : lasting m -> lasting_all m.
Proof. intros L h h' v K. apply L. exact (all_kept_kept _ _ K). Qed.
Lemma lasting_ret {A} (a : A) : lasting (hret a).
Proof. intros h h' v _ E. unfold reads, hret in *. congruence. Qed.
Lemma lasting_undef {A} u : lasting (@hundef A u).
Proof. intros h h' v _ E. discriminate E. Qed.
Lemma reader_ret {A} (a : A) : reader (hret a).
Proof. now intros h. Qed.
Lemma reader_undef {A} u : reader (@hundef A u).
Proof. now intros h. Qed.
Lemma reader_get q p : reader (h_get q p).
Proof. intros h. unfold h_get. destruct p; [|reflexivity]. now destruct (lookup n (h_live h)). Qed.
Lemma reader_text q p : reader (h_text q p).
Proof. apply reader_bind; [apply reader_get|]. now intros []. Qed.
Lemma reader_peek p : reader (peek p).
Proof. unfold peek. destruct p; [|apply reader_ret]. apply reader_bind; [apply reader_text|]. intros. apply reader_ret. Qed.
Lemma lasting_text q p : lasting (h_text q p).
Proof.
  intros h h' v K E. apply text_inv in E as (_ & a & k & -> & L). eapply text_at. apply K; [exact L|discriminate].
Qed.
Lemma lasting_peek p : lasting (peek p).
Proof. unfold peek. destruct p; [|apply lasting_ret]. apply lasting_bind; [apply reader_text|apply lasting_text|]. intros. apply lasting_ret. Qed.
Lemma get_inv q p h c h' : h_get q p h = (Done c, h') -> h' = h /\ exists a k, p = Some a /\ lookup a (h_live h) = Some (mkB k c).
Proof.
  unfold h_get. destruct p as [a|]; [|discriminate]. destruct (lookup a (h_live h)) as [[k c']|] eqn:L; [|discriminate]. intros E. injection E as -> ->.
  split; [reflexivity|]. now exists a, k.
Qed.
Lemma lasting_get_addr p : lasting (get_addr p).
Proof.
  intros h h' v K E. unfold get_addr in *. apply reads_split in E as (c & E1 & E2); [|apply reader_get].
  apply get_inv in E1 as (_ & a & k & -> & L). destruct c as [s|l|o|o|o|]; try discriminate E2.
  eapply (reads_bind _ _ _ (AddrObj o)); [|exact (lasting_ret _ _ _ _ K E2)]. unfold reads, h_get. rewrite (K _ _ L); [reflexivity|discriminate].
Qed.
Lemma lasting_get_att p : lasting (get_att p).
Proof.
  intros h h' v K E. unfold get_att in *. apply reads_split in E as (c & E1 & E2); [|apply reader_get].
  apply get_inv in E1 as (_ & a & k & -> & L). destruct c as [s|l|o|o|o|]; try discriminate E2.
  eapply (reads_bind _ _ _ (AttObj o)); [|exact (lasting_ret _ _ _ _ K E2)]. unfold reads, h_get. rewrite (K _ _ L); [reflexivity|discriminate].
Qed.
Lemma reader_get_addr p : reader (get_addr p).
Proof. apply reader_bind; [apply reader_get|]. now intros []. Qed.
Lemma reader_get_att p : reader (get_att p).
Proof. apply reader_bind; [apply reader_get|]. now intros []. Qed.
Lemma reader_cell p i : reader (cell p i).
Proof. apply reader_bind; [apply reader_bind; [apply reader_get|now intros []]|]. intros l. now destruct (nth_error l i). Qed.
Lemma reader_read_addr o : reader (read_addr o).
Proof. unfold read_addr. repeat (apply reader_bind; [apply reader_peek|intros]). apply reader_ret. Qed.
Lemma reader_read_att o : reader (read_att o).
Proof. unfold read_att. repeat (apply reader_bind; [apply reader_peek|intros]). apply reader_ret. Qed.
Lemma lasting_read_addr o : lasting (read_addr o).
Proof. unfold read_addr. repeat (apply lasting_bind; [apply reader_peek|apply lasting_peek|intros]). apply lasting_ret. Qed.
Lemma lasting_read_att o : lasting (read_att o).
Proof. unfold read_att. repeat (apply lasting_bind; [apply reader_peek|apply lasting_peek|intros]). apply lasting_ret. Qed.

Definition addr_elem (p : ptr) : H (option str * option str) := o <~ get_addr p ;; read_addr o.
Definition att_elem (p : ptr) : H (option str * option str * option str) := o <~ get_att p ;; read_att o.
Lemma reader_addr_elem p : reader (addr_elem p).
Proof. apply reader_bind; [apply reader_get_addr|apply reader_read_addr]. Qed.
Lemma reader_att_elem p : reader (att_elem p).
Proof. apply reader_bind; [apply reader_get_att|apply reader_read_att]. Qed.
Lemma lasting_addr_elem p : lasting (addr_elem p).
Proof. apply lasting_bind; [apply reader_get_addr|apply lasting_get_addr|apply lasting_read_addr]. Qed.
Lemma lasting_att_elem p : lasting (att_elem p).
Proof. apply lasting_bind; [apply reader_get_att|apply lasting_get_att|apply lasting_read_att]. Qed.

(** ** Reading objects of the program does not depend on later blocks *)

Lemma peek_below n p h h' : low n p -> same_below n h h' -> fst (peek p h') = fst (peek p h).
Proof.
  intros L S. unfold peek, h_text, hbind, h_get. destruct p as [a|]; [|reflexivity]. cbn in L. rewrite (S a L).
  destruct (lookup a (h_live h)) as [b|]; [|reflexivity]. now destruct (b_content b).
Qed.
Lemma fst_bind {A C} (m : H A) (k : A -> H C) h h' : reader m -> fst (m h') = fst (m h) -> (forall a, fst (k a h') = fst (k a h)) -> fst (hbind m k h') = fst (hbind m k h).
Proof.
  intros R E K. unfold hbind. pose proof (R h) as R1. pose proof (R h') as R2.
  destruct (m h) as [x h1], (m h') as [x' h1']. cbn in *. subst. destruct x; auto.
Qed.
Lemma read_addr_below n o h h' : lowl n (paddr o) -> same_below n h h' -> fst (read_addr o h') = fst (read_addr o h).
Proof.
  intros Q S. unfold paddr, lowl in Q. apart. unfold read_addr. repeat (apply fst_bind; [apply reader_peek|eapply peek_below; eauto|intros]). reflexivity.
Qed.
Lemma read_att_below n o h h' : lowl n (patt o) -> same_below n h h' -> fst (read_att o h') = fst (read_att o h).
Proof.
  intros Q S. unfold patt, lowl in Q. apart. unfold read_att. repeat (apply fst_bind; [apply reader_peek|eapply peek_below; eauto|intros]). reflexivity.
Qed.
Lemma text_below n q p h h' : low n p -> same_below n h h' -> fst (h_text q p h') = fst (h_text q p h).
Proof.
  intros L S. unfold h_text, hbind, h_get. destruct p as [a|]; [|reflexivity]. cbn in L. rewrite (S a L).
  destruct (lookup a (h_live h)) as [b|]; [|reflexivity]. now destruct (b_content b).
Qed.

(** ** Copies *)

Lemma bind_inv {A C} (m : H A) (k : A -> H C) h v h' : hbind m k h = (Done v, h') -> exists a h1, m h = (Done a, h1) /\ k a h1 = (Done v, h').
Proof. unfold hbind. destruct (m h) as [[a| | | | |] h1]; try discriminate. intros E. now exists a, h1. Qed.
Lemma dup_inv s h p h' : wfh h -> h_dup s h = (Done p, h') -> grown h h' /\ reads (peek p) h' (Some s).
Proof.
  intros W E. split; [apply (gentle_grown (h_dup s) h (Done p)); [intros; apply gentle_h_dup|exact W|exact E]|].
  injection E as <- <-. eapply peek_at. cbn [h_live lookup]. now rewrite Nat.eqb_refl.
Qed.
(** A text read from an old pointer, after some allocations. *)
Lemma text_old q p h h1 s h1' : low (h_next h) p -> grown h h1 -> h_text q p h1 = (Done s, h1') -> h1' = h1 /\ reads (peek p) h (Some s).
Proof.
  intros L (_ & _ & S & _) E. apply text_inv in E as (-> & a & k & -> & La). split; [reflexivity|]. cbn in L. rewrite (S a L) in La. now apply (peek_at a k).
Qed.
Lemma peek_lasts p h h' v : grown h h' -> reads (peek p) h v -> reads (peek p) h' v.
Proof. intros (_ & _ & _ & K) E. eapply lasting_peek; [exact (all_kept_kept _ _ K)|exact E]. Qed.
Lemma addr_copy_shows o h o' h' : wfh h -> lowl (h_next h) (paddr o) -> addr_copy o h = (Done o', h') ->
  grown h h' /\ exists v, reads (read_addr o) h v /\ reads (read_addr o') h' v.
Proof.
  intros W Q E. unfold paddr, lowl in Q. apart. unfold addr_copy in E.
  apply bind_inv in E as (e & h1 & E1 & E). destruct (text_old _ _ h h _ _ H (grown_refl h W) E1) as [-> R1].
  apply bind_inv in E as (pe & h2 & E2 & E). destruct (dup_inv _ _ _ _ W E2) as [G2 R2].
  apply bind_inv in E as (nm & h3 & E3 & E). destruct (text_old _ _ h h2 _ _ H0 G2 E3) as [-> R3].
  apply bind_inv in E as (pn & h4 & E4 & E). destruct (dup_inv _ _ _ _ (proj1 G2) E4) as [G4 R4].
  injection E as <- <-. split; [now apply (grown_trans _ h2)|]. exists (Some e, Some nm). unfold read_addr. cbn [ao_email ao_name]. split.
  - eapply reads_bind; [exact R1|]. eapply reads_bind; [exact R3|reflexivity].
  - eapply reads_bind; [exact (peek_lasts _ _ _ _ G4 R2)|]. eapply reads_bind; [exact R4|reflexivity].
Qed.
Lemma att_copy_shows o h o' h' : wfh h -> lowl (h_next h) (patt o) -> att_copy o h = (Done o', h') ->
  grown h h' /\ exists v, reads (read_att o) h v /\ reads (read_att o') h' v.
Proof.
  intros W Q E. unfold patt, lowl in Q. apart. unfold att_copy in E.
  apply bind_inv in E as (e & h1 & E1 & E). destruct (text_old _ _ h h _ _ H (grown_refl h W) E1) as [-> R1].
  apply bind_inv in E as (pe & h2 & E2 & E). destruct (dup_inv _ _ _ _ W E2) as [G2 R2].
  apply bind_inv in E as (nm & h3 & E3 & E). destruct (text_old _ _ h h2 _ _ H0 G2 E3) as [-> R3].
  apply bind_inv in E as (pn & h4 & E4 & E). destruct (dup_inv _ _ _ _ (proj1 G2) E4) as [G4 R4]. pose proof (grown_trans _ _ _ G2 G4) as G24.
  apply bind_inv in E as (cd & h5 & E5 & E). destruct (text_old _ _ h h4 _ _ H1 G24 E5) as [-> R5].
  apply bind_inv in E as (pc & h6 & E6 & E). destruct (dup_inv _ _ _ _ (proj1 G4) E6) as [G6 R6].
  injection E as <- <-. split; [exact (grown_trans _ _ _ G24 G6)|]. exists (Some e, Some nm, Some cd). unfold read_att. cbn [to_name to_file to_cid]. split.
  - eapply reads_bind; [exact R1|]. eapply reads_bind; [exact R3|]. eapply reads_bind; [exact R5|reflexivity].
  - eapply reads_bind; [exact (peek_lasts _ _ _ _ (grown_trans _ _ _ G4 G6) R2)|]. eapply reads_bind; [exact (peek_lasts _ _ _ _ G6 R4)|].
    eapply reads_bind; [exact R6|reflexivity].
Qed.
Lemma fresh_grown h k c : wfh h -> grown h (mkHeap (S (h_next h)) ((h_next h, mkB k c) :: h_live h)).
Proof. intros W. apply (gentle_grown (h_new k c) h (Done (Some (h_next h)))); [intros; apply gentle_new|exact W|reflexivity]. Qed.
Lemma new_addr_shows o h p h' : wfh h -> lowl (h_next h) (paddr o) -> new_addr (addr_copy o) h = (Done p, h') ->
  grown h h' /\ exists v, reads (read_addr o) h v /\ reads (addr_elem p) h' v.
Proof.
  intros W Q E. unfold new_addr in E. apply bind_inv in E as (o' & h1 & E1 & E). destruct (addr_copy_shows _ _ _ _ W Q E1) as (G1 & v & R & R').
  injection E as <- <-. pose proof (fresh_grown h1 One (AddrObj o') (proj1 G1)) as G. split; [now apply (grown_trans _ h1)|]. exists v. split; [exact R|].
  unfold addr_elem. eapply reads_bind.
  - unfold get_addr. eapply (reads_bind _ _ _ (AddrObj o')); [|reflexivity]. unfold reads, h_get. cbn [h_live lookup]. now rewrite Nat.eqb_refl.
  - eapply lasting_read_addr; [|exact R']. apply all_kept_kept, G.
Qed.
Lemma new_att_shows o h p h' : wfh h -> lowl (h_next h) (patt o) -> new_att (att_copy o) h = (Done p, h') ->
  grown h h' /\ exists v, reads (read_att o) h v /\ reads (att_elem p) h' v.
Proof.
  intros W Q E. unfold new_att in E. apply bind_inv in E as (o' & h1 & E1 & E). destruct (att_copy_shows _ _ _ _ W Q E1) as (G1 & v & R & R').
  injection E as <- <-. pose proof (fresh_grown h1 One (AttObj o') (proj1 G1)) as G. split; [now apply (grown_trans _ h1)|]. exists v. split; [exact R|].
  unfold att_elem. eapply reads_bind.
  - unfold get_att. eapply (reads_bind _ _ _ (AttObj o')); [|reflexivity]. unfold reads, h_get. cbn [h_live lookup]. now rewrite Nat.eqb_refl.
  - eapply lasting_read_att; [|exact R']. apply all_kept_kept, G.
Qed.

(** ** Arrays *)

Section Array.
Variables (A V : Type) (mk : A -> H ptr) (src : A -> H V) (elem : ptr -> H V) (px : A -> list ptr).
Hypothesis Hmk : forall x h p h', wfh h -> lowl (h_next h) (px x) -> mk x h = (Done p, h') -> grown h h' /\ exists v, reads (src x) h v /\ reads (elem p) h' v.
Hypothesis Hsrc : forall n x h h', lowl n (px x) -> same_below n h h' -> fst (src x h') = fst (src x h).
Hypothesis Rsrc : forall x, reader (src x).
Hypothesis Helem : forall p, lasting (elem p).
Hypothesis Relem : forall p, reader (elem p).

Definition nth_mk (l : list A) (i : nat) : H ptr := match nth_error l i with Some x => mk x | None => hundef UB_UseAfterFree end.
Lemma src_back x h h' v : lowl (h_next h) (px x) -> grown h h' -> reads (src x) h' v -> reads (src x) h v.
Proof.
  intros Q (_ & _ & S & _) R. pose proof (Hsrc _ x h h' Q S) as E. pose proof (Rsrc x h) as E2. unfold reads in *. rewrite R in E. cbn in E.
  destruct (src x h) as [o h1]. cbn in *. congruence.
Qed.
Lemma loop_shows r : forall pre h lp h', wfh h -> lowl (h_next h) (flat_map px r) ->
  h_loop (length r) (length pre) (nth_mk (pre ++ r)) h = (Done lp, h') ->
  grown h h' /\ Forall2 (fun x p => exists v, reads (src x) h v /\ reads (elem p) h' v) r lp.
Proof.
  induction r as [|x r IH]; intros pre h lp h' W Q E.
  - injection E as <- <-. split; [now apply grown_refl|constructor].
  - cbn [length h_loop] in E. apply bind_inv in E as (p & h1 & E1 & E). apply bind_inv in E as (lp1 & h2 & E2 & E). injection E as <- <-.
    cbn [flat_map] in Q. apply Forall_app in Q as [Q1 Q2].
    unfold nth_mk in E1. rewrite nth_error_app2, Nat.sub_diag in E1 by lia. cbn [nth_error] in E1.
    destruct (Hmk _ _ _ _ W Q1 E1) as (G1 & v & R1 & R2).
    replace (pre ++ x :: r) with ((pre ++ [x]) ++ r) in E2 by now rewrite <- app_assoc.
    replace (S (length pre)) with (length (pre ++ [x])) in E2 by (rewrite app_length; cbn; lia).
    destruct (IH (pre ++ [x]) h1 lp1 h2 (proj1 G1) (lowl_mono _ _ _ (proj1 (proj2 G1)) Q2) E2) as (G2 & F).
    split; [now apply (grown_trans _ h1)|]. constructor.
    + exists v. split; [exact R1|]. eapply Helem; [|exact R2]. apply all_kept_kept, G2.
    + revert Q2 F. clear - G1 Hsrc Rsrc. intros Q2 F. induction F as [|y q r lp1 (w & S1 & S2) F IH]; constructor.
      * exists w. split; [|exact S2]. cbn [flat_map] in Q2. apply Forall_app in Q2 as [Q2 _]. now apply (src_back _ _ h1).
      * cbn [flat_map] in Q2. apply Forall_app in Q2 as [_ Q2]. auto.
Qed.

Definition read_arr (arr : ptr) (n : nat) : H (option (list V)) :=
  match arr with
  | None => hret None
  | Some _ => l <~ h_loop n 0 (fun i => p <~ cell arr i ;; elem p) ;; hret (Some l)
  end.
Lemma reader_loop {B} (f : nat -> H B) k : forall i, (forall i, reader (f i)) -> reader (h_loop k i f).
Proof. induction k as [|k IH]; intros i R; cbn [h_loop]; [apply reader_ret|]. apply reader_bind; [apply R|]. intros. apply reader_bind; [now apply IH|]. intros. apply reader_ret. Qed.
Lemma lasting_all_loop {B} (f : nat -> H B) k : forall i, (forall i, reader (f i)) -> (forall i, lasting_all (f i)) -> lasting_all (h_loop k i f).
Proof.
  induction k as [|k IH]; intros i R L; cbn [h_loop]; [apply lasting_lasting_all, lasting_ret|]. apply lasting_all_bind; [apply R|apply L|]. intros.
  apply lasting_all_bind; [now apply reader_loop|now apply IH|]. intros. apply lasting_lasting_all, lasting_ret.
Qed.
Lemma lasting_all_cell p i : lasting_all (cell p i).
Proof.
  intros h h' v K E. unfold cell in *. apply reads_split in E as (l & E1 & E2); [|apply reader_bind; [apply reader_get|now intros []]].
  unfold get_cells in *. apply reads_split in E1 as (c & E0 & E1); [|apply reader_get]. apply get_inv in E0 as (_ & a & k & -> & L).
  eapply (reads_bind _ _ _ l).
  - eapply reads_bind; [unfold reads, h_get; rewrite (K _ _ L); reflexivity|]. destruct c; try discriminate E1. unfold reads, hret in *. cbn. congruence.
  - destruct (nth_error l i); [|discriminate E2]. unfold reads, hret in *. congruence.
Qed.
Lemma read_arr_reader arr n : reader (read_arr arr n).
Proof.
  unfold read_arr. destruct arr; [|apply reader_ret]. apply reader_bind; [|intros; apply reader_ret]. apply reader_loop. intros. apply reader_bind; [apply reader_cell|apply Relem].
Qed.
Lemma read_arr_lasting arr n : lasting_all (read_arr arr n).
Proof.
  unfold read_arr. destruct arr; [|apply lasting_lasting_all, lasting_ret].
  assert (R : forall i, reader (p <~ cell (Some n0) i ;; elem p)) by (intros; apply reader_bind; [apply reader_cell|apply Relem]).
  apply lasting_all_bind; [now apply reader_loop| |intros; apply lasting_lasting_all, lasting_ret].
  apply lasting_all_loop; [exact R|]. intros. apply lasting_all_bind; [apply reader_cell|apply lasting_all_cell|]. intros. now apply lasting_lasting_all.
Qed.
Lemma cells_read a k lp h : lookup a (h_live h) = Some (mkB k (Cells lp)) -> forall vs, Forall2 (fun p v => reads (elem p) h v) lp vs ->
  reads (read_arr (Some a) (length lp)) h (Some vs).
Proof.
  intros L vs F. unfold read_arr. eapply reads_bind; [|reflexivity].
  assert (X : forall r pre ws, lp = pre ++ r -> Forall2 (fun p v => reads (elem p) h v) r ws ->
    reads (h_loop (length r) (length pre) (fun i => p <~ cell (Some a) i ;; elem p)) h ws).
  { induction r as [|p r IH]; intros pre ws E G; inversion G as [|? w ? ws' G1 G2]; subst; [reflexivity|]. cbn [length h_loop].
    eapply reads_bind.
    - eapply (reads_bind _ _ _ p); [|exact G1]. unfold cell. eapply (reads_bind _ _ _ (pre ++ p :: r)).
      + unfold get_cells. eapply (reads_bind _ _ _ (Cells (pre ++ p :: r))); [|reflexivity]. unfold reads, h_get. now rewrite L.
      + rewrite nth_error_app2, Nat.sub_diag by lia. reflexivity.
    - eapply reads_bind; [|reflexivity]. replace (S (length pre)) with (length (pre ++ [p])) by (rewrite app_length; cbn; lia).
      apply IH; [now rewrite <- app_assoc|exact G2]. }
  exact (X lp [] vs eq_refl F).
Qed.
Lemma put_inv q a h c h' k c0 : lookup a (h_live h) = Some (mkB k c0) -> h_put q (Some a) c h = (Done tt, h') ->
  lookup a (h_live h') = Some (mkB k c) /\ forall b, b <> a -> lookup b (h_live h') = lookup b (h_live h).
Proof.
  intros L E. unfold h_put in E. rewrite L in E. injection E as <-. cbn [h_live lookup b_alloc]. rewrite Nat.eqb_refl. split; [reflexivity|].
  intros b N. destruct (Nat.eqb_spec b a); [congruence|]. clear L. induction (h_live h) as [|[x y] r IH]; [reflexivity|]. cbn.
  destruct (Nat.eqb_spec a x) as [->|Na]; [destruct (Nat.eqb_spec b x); [congruence|reflexivity]|]. cbn. now rewrite IH.
Qed.
Lemma build_shows a h q h' : (forall n x, gentle n (mk x)) -> wfh h -> lowl (h_next h) (flat_map px (members a)) -> arr_build mk a h = (Done q, h') ->
  grown h h' /\ exists v, reads (read_arr q (arr_count a)) h' v /\ Forall2 (fun x w => reads (src x) h w) (members a) (shown v).
Proof.
  intros G W Q E. split; [apply (gentle_grown (arr_build mk a) h (Done q)); [intros; now apply gentle_arr_build|exact W|exact E]|].
  destruct a as [n|l]; cbn [arr_build members arr_count] in *.
  - injection E as <- <-. exists None. split; [reflexivity|constructor].
  - unfold new_cells in E. apply bind_inv in E as (a & h1 & E1 & E). apply bind_inv in E as (lp & h2 & E2 & E). apply bind_inv in E as (u & h3 & E3 & E).
    injection E as <- <-. injection E1 as <- <-. set (h1 := mkHeap _ _) in *. destruct u.
    assert (G1 : grown h h1) by now apply fresh_grown.
    destruct (loop_shows l [] h1 lp h2 (proj1 G1) (lowl_mono _ _ _ (proj1 (proj2 G1)) Q) E2) as (G2 & F).
    assert (La : lookup (h_next h) (h_live h2) = Some (mkB Many (Cells (repeat None (length l))))).
    { apply G2. unfold h1. cbn [h_live lookup]. now rewrite Nat.eqb_refl. }
    destruct (put_inv _ _ _ _ _ _ _ La E3) as [Lb O].
    assert (K : kept h2 h3).
    { intros b c Lc N. destruct (Nat.eq_dec b (h_next h)) as [->|Ne]; [|now rewrite O]. rewrite La in Lc. injection Lc as <-. destruct (N _ eq_refl). }
    assert (X : exists vs, Forall2 (fun p v => reads (elem p) h3 v) lp vs /\ Forall2 (fun x w => reads (src x) h w) l vs).
    { clearbody h1. clear - F K Helem Hsrc Rsrc G1 Q. induction F as [|x p r lp (v & R1 & R2) F IH]; [exists []; split; constructor|].
      cbn [flat_map] in Q. apply Forall_app in Q as [Q1 Q2]. destruct (IH Q2) as (vs & I1 & I2). exists (v :: vs). split; constructor; auto.
      - eapply Helem; eauto.
      - eapply src_back; eauto. }
    destruct X as (vs & X1 & X2). exists (Some vs). split; [|exact X2].
    replace (length l) with (length lp); [now apply (cells_read _ Many)|]. clearbody h1. clear - F. induction F; cbn; congruence.
Qed.
End Array.

(** ** Messages *)

Lemma text_build_shows c h p h' : wfh h -> text_build c h = (Done p, h') ->
  grown h h' /\ exists o, reads (c_read c) h o /\ reads (peek p) h' (Some (match o with Some s => s | None => [] end)).
Proof.
  intros W E. split; [apply (gentle_grown (text_build c) h (Done p)); [intros; apply gentle_text_build|exact W|exact E]|].
  unfold text_build in E. apply bind_inv in E as (o & h1 & E1 & E).
  assert (h1 = h) as ->.
  { unfold c_read in E1. destruct c as [|s|[a|]]; try (now injection E1 as <- <-). apply bind_inv in E1 as (s & h2 & E1 & E2). apply text_reads in E1. injection E2 as _ <-. exact E1. }
  exists o. split; [exact E1|]. destruct o as [s|].
  - apply (dup_inv s h p h' W E).
  - injection E as <- <-. eapply peek_at. cbn [h_live lookup]. now rewrite Nat.eqb_refl.
Qed.
Definition low_c (n : nat) (c : cptr) : Prop := match c with CInside p => low n p | _ => True end.
Lemma c_read_back c h h' o : low_c (h_next h) c -> grown h h' -> reads (c_read c) h' o -> reads (c_read c) h o.
Proof.
  intros L G R. unfold c_read in *. destruct c as [|s|[a|]]; try (unfold reads, hret in *; congruence).
  apply reads_split in R as (s & R1 & R2); [|apply reader_text]. cbn in L.
  apply text_inv in R1 as (_ & b & k & E & La). injection E as <-. destruct G as (_ & _ & S & _). rewrite (S a L) in La.
  eapply reads_bind; [eapply text_at; exact La|]. unfold reads, hret in *. congruence.
Qed.

Lemma all_kept_reads {A} (m : H A) h h' v : lasting_all m -> grown h h' -> reads m h v -> reads m h' v.
Proof. intros L (_ & _ & _ & K). now apply L. Qed.

Lemma addrs_show a h q h' : wfh h -> lowl (h_next h) (flat_map paddr (members a)) -> arr_build (fun o => new_addr (addr_copy o)) a h = (Done q, h') ->
  grown h h' /\ exists v, reads (read_arr _ addr_elem q (arr_count a)) h' v /\ Forall2 (fun x w => reads (read_addr x) h w) (members a) (shown v).
Proof.
  intros W Q E. eapply build_shows with (mk := fun o => new_addr (addr_copy o)) (px := paddr); eauto.
  - intros. eapply new_addr_shows; eauto.
  - apply read_addr_below.
  - apply reader_read_addr.
  - apply lasting_addr_elem.
  - apply reader_addr_elem.
  - intros. apply gentle_new_addr, gentle_addr_copy.
Qed.
Lemma atts_show a h q h' : wfh h -> lowl (h_next h) (flat_map patt (members a)) -> arr_build (fun o => new_att (att_copy o)) a h = (Done q, h') ->
  grown h h' /\ exists v, reads (read_arr _ att_elem q (arr_count a)) h' v /\ Forall2 (fun x w => reads (read_att x) h w) (members a) (shown v).
Proof.
  intros W Q E. eapply build_shows with (mk := fun o => new_att (att_copy o)) (px := patt); eauto.
  - intros. eapply new_att_shows; eauto.
  - apply read_att_below.
  - apply reader_read_att.
  - apply lasting_att_elem.
  - apply reader_att_elem.
  - intros. apply gentle_new_att, gentle_att_copy.
Qed.

Lemma msg_new_shows f t c d s b a h m h' : wfh h -> lowl (h_next h) (paddr f) -> lowl (h_next h) (flat_map paddr (members t)) ->
  lowl (h_next h) (flat_map paddr (members c)) -> lowl (h_next h) (flat_map paddr (members d)) -> lowl (h_next h) (flat_map patt (members a)) ->
  low_c (h_next h) s -> low_c (h_next h) b ->
  msg_new f t c d s b a h = (Done m, h') ->
  exists v os ob, reads (read_msg m) h' v /\ reads (read_addr f) h (w_from v) /\
    Forall2 (fun x w => reads (read_addr x) h w) (members t) (shown (w_to v)) /\ w_nto v = arr_count t /\
    Forall2 (fun x w => reads (read_addr x) h w) (members c) (shown (w_cc v)) /\ w_ncc v = arr_count c /\
    Forall2 (fun x w => reads (read_addr x) h w) (members d) (shown (w_bcc v)) /\ w_nbcc v = arr_count d /\
    Forall2 (fun x w => reads (read_att x) h w) (members a) (shown (w_atts v)) /\ w_natts v = arr_count a /\
    reads (c_read s) h os /\ w_subject v = Some (match os with Some x => x | None => [] end) /\
    reads (c_read b) h ob /\ w_body v = Some (match ob with Some x => x | None => [] end).
Proof.
  intros W Qf Qt Qc Qd Qa Qs Qb E. unfold msg_new in E.
  apply bind_inv in E as (f' & h1 & E1 & E). destruct (addr_copy_shows _ _ _ _ W Qf E1) as (G1 & vf & Rf & Rf').
  apply bind_inv in E as (ps & h2 & E2 & E). destruct (text_build_shows _ _ _ _ (proj1 G1) E2) as (G2 & os & Rs & Rs'). pose proof (grown_trans _ _ _ G1 G2) as H2.
  apply bind_inv in E as (pb & h3 & E3 & E). destruct (text_build_shows _ _ _ _ (proj1 G2) E3) as (G3 & ob & Rb & Rb'). pose proof (grown_trans _ _ _ H2 G3) as H3.
  assert (BackA : forall l h1 ws, grown h h1 -> lowl (h_next h) (flat_map paddr l) -> Forall2 (fun x w => reads (read_addr x) h1 w) l ws -> Forall2 (fun x w => reads (read_addr x) h w) l ws).
  { intros l k ws G Q F. induction F; constructor; cbn [flat_map] in Q; apply Forall_app in Q as [Q1 Q2]; auto.
    apply (src_back _ _ read_addr paddr read_addr_below reader_read_addr x h k y Q1 G H). }
  assert (BackT : forall l h1 ws, grown h h1 -> lowl (h_next h) (flat_map patt l) -> Forall2 (fun x w => reads (read_att x) h1 w) l ws -> Forall2 (fun x w => reads (read_att x) h w) l ws).
  { intros l k ws G Q F. induction F; constructor; cbn [flat_map] in Q; apply Forall_app in Q as [Q1 Q2]; auto.
    apply (src_back _ _ read_att patt read_att_below reader_read_att x h k y Q1 G H). }
  assert (LA := read_arr_lasting (option str * option str) addr_elem lasting_addr_elem reader_addr_elem).
  assert (LT := read_arr_lasting (option str * option str * option str) att_elem lasting_att_elem reader_att_elem).
  apply bind_inv in E as (pt & h4 & E4 & E). destruct (addrs_show _ _ _ _ (proj1 G3) (lowl_mono _ _ _ (proj1 (proj2 H3)) Qt) E4) as (G4 & vt & Rt & Ft). pose proof (grown_trans _ _ _ H3 G4) as H4.
  apply bind_inv in E as (pc & h5 & E5 & E). destruct (addrs_show _ _ _ _ (proj1 G4) (lowl_mono _ _ _ (proj1 (proj2 H4)) Qc) E5) as (G5 & vc & Rc & Fc). pose proof (grown_trans _ _ _ H4 G5) as H5.
  apply bind_inv in E as (pd & h6 & E6 & E). destruct (addrs_show _ _ _ _ (proj1 G5) (lowl_mono _ _ _ (proj1 (proj2 H5)) Qd) E6) as (G6 & vd & Rd & Fd). pose proof (grown_trans _ _ _ H5 G6) as H6.
  apply bind_inv in E as (pa & h7 & E7 & E). destruct (atts_show _ _ _ _ (proj1 G6) (lowl_mono _ _ _ (proj1 (proj2 H6)) Qa) E7) as (G7 & va & Ra & Fa).
  injection E as <- <-.
  assert (G67 := G7). assert (G57 := grown_trans _ _ _ G6 G67). assert (G47 := grown_trans _ _ _ G5 G57). assert (G37 := grown_trans _ _ _ G4 G47).
  assert (G27 := grown_trans _ _ _ G3 G37). assert (G17 := grown_trans _ _ _ G2 G27).
  exists (mkView vf vt (arr_count t) vc (arr_count c) vd (arr_count d) (Some (match os with Some x => x | None => [] end)) (Some (match ob with Some x => x | None => [] end)) va (arr_count a)), os, ob.
  cbn [w_from w_to w_nto w_cc w_ncc w_bcc w_nbcc w_subject w_body w_atts w_natts].
  split; [|repeat (split; [first [reflexivity|exact Rf|exact (BackA _ _ _ H3 Qt Ft)|exact (BackA _ _ _ H4 Qc Fc)|exact (BackA _ _ _ H5 Qd Fd)|exact (BackT _ _ _ H6 Qa Fa)
    |exact (c_read_back _ _ _ _ Qs G1 Rs)|exact (c_read_back _ _ _ _ Qb H2 Rb)]|]); reflexivity].
  unfold read_msg. cbn [mo_from mo_to mo_nto mo_cc mo_ncc mo_bcc mo_nbcc mo_subject mo_body mo_atts mo_natts].
  eapply reads_bind; [exact (all_kept_reads _ _ _ _ (lasting_lasting_all _ (lasting_read_addr f')) G17 Rf')|].
  eapply reads_bind; [exact (all_kept_reads _ _ _ _ (LA pt _) G47 Rt)|].
  eapply reads_bind; [exact (all_kept_reads _ _ _ _ (LA pc _) G57 Rc)|].
  eapply reads_bind; [exact (all_kept_reads _ _ _ _ (LA pd _) G67 Rd)|].
  eapply reads_bind; [exact (all_kept_reads _ _ _ _ (lasting_lasting_all _ (lasting_peek ps)) G27 Rs')|].
  eapply reads_bind; [exact (all_kept_reads _ _ _ _ (lasting_lasting_all _ (lasting_peek pb)) G37 Rb')|].
  eapply reads_bind; [exact Ra|reflexivity].
Qed.
