(** The constructor of a message, in every program. *)

From Coq Require Import Ascii String List NArith ZArith Bool Arith Lia.
From Verif Require Import Base ModelUtil ModelBase64 ModelAddress ModelAttachment ModelMessage ModelReply ModelHeap SpecHeap
  ModelScarce ProofScarce ProofScarce2 ProofScarce3 ProofHeap10 ProofFresh ProofFresh2.
Import ListNotations.
Open Scope nat_scope.

Lemma low_getter n o k : lowl n (pobj o) -> low n (getter o k).
Proof.
  intros Q. unfold lowl in Q. rewrite Forall_forall in Q.
  destruct o as [x|x|x|x|x|x|]; do 4 (destruct k as [|k]; [first [exact Logic.I|apply Q; cbn; tauto]|]); exact Logic.I.
Qed.
Lemma low_eval n p a : lowl n (ppool p) -> low_c n (eval p a).
Proof. intros Q. destruct a as [|s|i k]; cbn; auto. apply low_getter, low_get, Q. Qed.
Lemma addrs_low n p l : forall q, lowl n (ppool p) -> addrs_of p l = Some q -> lowl n (flat_map paddr q).
Proof.
  induction l as [|i r IH]; intros q Q E; cbn in E; [injection E as <-; constructor|]. pose proof (low_get n p i Q) as G.
  destruct (get i p); try discriminate. destruct (addrs_of p r) as [q'|]; [|discriminate]. injection E as <-. cbn [flat_map]. apply Forall_app. split; auto. exact (IH q' Q eq_refl).
Qed.
Lemma atts_low n p l : forall q, lowl n (ppool p) -> atts_of p l = Some q -> lowl n (flat_map patt q).
Proof.
  induction l as [|i r IH]; intros q Q E; cbn in E; [injection E as <-; constructor|]. pose proof (low_get n p i Q) as G.
  destruct (get i p); try discriminate. destruct (atts_of p r) as [q'|]; [|discriminate]. injection E as <-. cbn [flat_map]. apply Forall_app. split; auto. exact (IH q' Q eq_refl).
Qed.
Lemma addr_array_low n p a q : lowl n (ppool p) -> addr_array p a = Some q -> lowl n (flat_map paddr (members q)).
Proof.
  intros Q E. destruct a as [k|l]; cbn in E; [injection E as <-; constructor|]. destruct (addrs_of p l) eqn:El; [|discriminate]. injection E as <-. exact (addrs_low n p l _ Q El).
Qed.
Lemma att_array_low n p a q : lowl n (ppool p) -> att_array p a = Some q -> lowl n (flat_map patt (members q)).
Proof.
  intros Q E. destruct a as [k|l]; cbn in E; [injection E as <-; constructor|]. destruct (atts_of p l) eqn:El; [|discriminate]. injection E as <-. exact (atts_low n p l _ Q El).
Qed.

Lemma observe_addr h o v : reads (read_addr o) h v -> fst (observe (OAddr o) h) = Done (SAddr v).
Proof. intros R. cbn [observe]. unfold hbind. now rewrite R. Qed.
Lemma observe_att h o v : reads (read_att o) h v -> fst (observe (OAtt o) h) = Done (SAtt v).
Proof. intros R. cbn [observe]. unfold hbind. now rewrite R. Qed.
Lemma addrs_seen h p l : forall q vs, addrs_of p l = Some q -> Forall2 (fun x w => reads (read_addr x) h w) q vs ->
  length q = length l /\ Forall2 (fun k v => fst (observe (get k p) h) = Done (SAddr v)) l vs.
Proof.
  induction l as [|i r IH]; intros q vs E F; cbn in E; [injection E as <-; inversion F; split; constructor|].
  destruct (get i p) as [o| | | | | |] eqn:Eg; try discriminate. destruct (addrs_of p r) as [q'|]; [|discriminate]. injection E as <-. inversion F as [|? v ? vs' F1 F2]; subst.
  destruct (IH q' vs' eq_refl F2) as [I1 I2]. split; [cbn; lia|]. constructor; [|exact I2]. rewrite Eg. now apply observe_addr.
Qed.
Lemma atts_seen h p l : forall q vs, atts_of p l = Some q -> Forall2 (fun x w => reads (read_att x) h w) q vs ->
  length q = length l /\ Forall2 (fun k v => fst (observe (get k p) h) = Done (SAtt v)) l vs.
Proof.
  induction l as [|i r IH]; intros q vs E F; cbn in E; [injection E as <-; inversion F; split; constructor|].
  destruct (get i p) as [|o| | | | |] eqn:Eg; try discriminate. destruct (atts_of p r) as [q'|]; [|discriminate]. injection E as <-. inversion F as [|? v ? vs' F1 F2]; subst.
  destruct (IH q' vs' eq_refl F2) as [I1 I2]. split; [cbn; lia|]. constructor; [|exact I2]. rewrite Eg. now apply observe_att.
Qed.
Lemma addr_array_seen h p a q vs : addr_array p a = Some q -> Forall2 (fun x w => reads (read_addr x) h w) (members q) vs ->
  arr_count q = arr_count a /\ Forall2 (fun k v => fst (observe (get k p) h) = Done (SAddr v)) (members a) vs.
Proof.
  intros E F. destruct a as [k|l]; cbn in E; [injection E as <-; cbn in F; inversion F; split; constructor|].
  destruct (addrs_of p l) as [q'|] eqn:El; [|discriminate]. injection E as <-. exact (addrs_seen h p l q' vs El F).
Qed.
Lemma att_array_seen h p a q vs : att_array p a = Some q -> Forall2 (fun x w => reads (read_att x) h w) (members q) vs ->
  arr_count q = arr_count a /\ Forall2 (fun k v => fst (observe (get k p) h) = Done (SAtt v)) (members a) vs.
Proof.
  intros E F. destruct a as [k|l]; cbn in E; [injection E as <-; cbn in F; inversion F; split; constructor|].
  destruct (atts_of p l) as [q'|] eqn:El; [|discriminate]. injection E as <-. exact (atts_seen h p l q' vs El F).
Qed.

Theorem always_shows : forall l p h f t c d s b a p' h', hexec l = (Done p, h) ->
  hstep p (VMsg f t c d s b a) h = (Done p', h') -> p' <> p ->
  exists m v os ob, p' = p ++ [OMsg m] /\ fst (read_msg m h') = Done v /\
    fst (observe (get f p) h) = Done (SAddr (w_from v)) /\
    Forall2 (fun k x => fst (observe (get k p) h) = Done (SAddr x)) (members t) (shown (w_to v)) /\ w_nto v = arr_count t /\
    Forall2 (fun k x => fst (observe (get k p) h) = Done (SAddr x)) (members c) (shown (w_cc v)) /\ w_ncc v = arr_count c /\
    Forall2 (fun k x => fst (observe (get k p) h) = Done (SAddr x)) (members d) (shown (w_bcc v)) /\ w_nbcc v = arr_count d /\
    Forall2 (fun k x => fst (observe (get k p) h) = Done (SAtt x)) (members a) (shown (w_atts v)) /\ w_natts v = arr_count a /\
    fst (c_read (eval p s) h) = Done os /\ w_subject v = Some (match os with Some x => x | None => [] end) /\
    fst (c_read (eval p b) h) = Done ob /\ w_body v = Some (match ob with Some x => x | None => [] end).
Proof.
  intros l p h f t c d s b a p' h' E Eo Np. destruct (program_low l p h E) as [[W _] Q]. cbn [hstep] in Eo.
  assert (Nr : forall h1, (hret p h1 : outcome pool * heap) <> (Done p', h')) by (intros h1; unfold hret; congruence).
  pose proof (low_get _ p f Q) as Qf.
  destruct (get f p) as [fo| | | | | |] eqn:Ef; try (now apply Nr in Eo).
  destruct (addr_array p t) as [t'|] eqn:Et; [|now apply Nr in Eo].
  destruct (addr_array p c) as [c'|] eqn:Ec; [|now apply Nr in Eo].
  destruct (addr_array p d) as [d'|] eqn:Ed; [|now apply Nr in Eo].
  destruct (att_array p a) as [a'|] eqn:Ea; [|now apply Nr in Eo].
  apply push_done in Eo as (m & Em & ->).
  destruct (msg_new_shows _ _ _ _ _ _ _ _ _ _ W Qf (addr_array_low _ _ _ _ Q Et) (addr_array_low _ _ _ _ Q Ec) (addr_array_low _ _ _ _ Q Ed) (att_array_low _ _ _ _ Q Ea)
    (low_eval _ p s Q) (low_eval _ p b Q) Em) as (v & os & ob & R & Rf & Ft & Nt & Fc & Nc & Fd & Nd & Fa & Na & Rs & Vs & Rb & Vb).
  destruct (addr_array_seen h p t _ _ Et Ft) as [It Jt]. destruct (addr_array_seen h p c _ _ Ec Fc) as [Ic Jc]. destruct (addr_array_seen h p d _ _ Ed Fd) as [Id Jd].
  destruct (att_array_seen h p a _ _ Ea Fa) as [Ia Ja].
  exists m, v, os, ob. split; [reflexivity|]. rewrite R, Nt, Nc, Nd, Na, It, Ic, Id, Ia, Rs, Rb. split; [reflexivity|]. split; [now apply observe_addr|].
  repeat (split; [first [reflexivity|assumption]|]). assumption.
Qed.
