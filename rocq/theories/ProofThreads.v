(** Threads with client objects of their own do not touch each other's sockets. *)

From Coq Require Import Ascii String List NArith ZArith Bool Lia ZifyBool ZifyNat ZifyN.
From Verif Require Import Base Lib ModelUtil ModelBase64 ModelAddress ModelAttachment
  ModelErrors ModelReply ModelMessage ModelState ModelClient ModelWorld
  ProofSteps ProofWalk ProofPhases ProofEstablish ProofLog ProofSend ProofWorld SpecOwn ProofOwn SpecThreads.
Import ListNotations.
Open Scope Z_scope.

(** ** One thread *)

Definition wants (t : list event) (ev : event) (fd : Z) : Prop := (In fd (uses t ev) /\ 0 < fd) \/ In fd (releases sockets ev).
(** What an action on a TLS connection is about is determined. *)
Definition sure (t : list event) (ev : event) : Prop :=
  on_tls ev = true -> exists fd, forall x, In x (uses t ev) <-> x = fd.
Definition respects (t : list event) : Prop :=
  forall t1 ev t2 fd, t = t1 ++ ev :: t2 -> wants t1 ev fd -> In fd (open_in sockets t1).
(** As long as the kernel hands out only free descriptors, only open ones are used. *)
Definition orderly (t : list event) : Prop :=
  (forall p q, t = p ++ q -> fresh sockets p -> respects p) /\
  (forall t1 ev t2, t = t1 ++ ev :: t2 -> sure t1 ev).

Lemma respects_nil : respects [].
Proof. intros t1 ev t2 fd E. destruct t1; discriminate E. Qed.

Lemma snoc_split : forall {A} (t : list A) a t1 b t2, t ++ [a] = t1 ++ b :: t2 ->
  (t1 = t /\ b = a /\ t2 = []) \/ exists t3, t2 = t3 ++ [a] /\ t = t1 ++ b :: t3.
Proof.
  intros A t a t1 b t2 E.
  destruct t2 as [|z t2 _] using rev_ind.
  - apply app_inj_tail in E as [-> ->]. auto.
  - right. exists t2. rewrite app_comm_cons, app_assoc in E. apply app_inj_tail in E as [-> ->]. auto.
Qed.

Lemma respects_snoc : forall t ev, respects t ->
  (forall fd, wants t ev fd -> In fd (open_in sockets t)) -> respects (t ++ [ev]).
Proof.
  intros t ev H He t1 ev' t2 fd E. apply snoc_split in E as [(-> & -> & ->)|(t3 & -> & ->)]; [apply He|].
  intros. eapply H; eauto.
Qed.

Lemma orderly_nil : orderly [].
Proof.
  split; [intros [|] q E _; [apply respects_nil|discriminate E]|]. intros t1 ev t2 E. destruct t1; discriminate E.
Qed.

Lemma orderly_snoc : forall t ev, orderly t ->
  (fresh sockets (t ++ [ev]) -> forall fd, wants t ev fd -> In fd (open_in sockets t)) -> sure t ev -> orderly (t ++ [ev]).
Proof.
  intros t ev [H Hs] He Su. split.
  - intros p q E F. destruct q as [|z q _] using rev_ind.
    + rewrite app_nil_r in E. subst p. apply respects_snoc; [|auto].
      apply (H t []); [rewrite app_nil_r; reflexivity|eapply fresh_prefix; exact F].
    + rewrite app_assoc in E. apply app_inj_tail in E as [-> ->]. apply (H p q); auto.
  - intros t1 ev' t2 E. apply snoc_split in E as [(-> & -> & ->)|(t3 & -> & ->)]; [exact Su|]. eapply Hs; reflexivity.
Qed.

(** A client that does not use TLS has no BIO; the BIO of any other client was
    created on the socket it remembers. *)
Definition tied (c : client) (t : list event) : Prop :=
  (c_kind c = KPlain -> c_bio c = None) /\
  (forall b, c_bio c = Some b -> In (EvBioNew (bio_id b) (bio_fd b)) t).
Lemma tied_app : forall c t t', tied c t -> tied c (t ++ t').
Proof. intros c t t' [A B]. split; [exact A|]. intros b Hb. apply in_or_app. auto. Qed.
Lemma tied_free : forall c t, c_bio c = None -> tied c t.
Proof. intros c t H. split; [auto|]. rewrite H. discriminate. Qed.

(** Clients that do not use TLS take no TLS steps. *)
Definition tls_fits (P : label -> Prop) (k : clientkind) : Prop := P LTls -> k <> KPlain.

Lemma tied_step : forall l s s', estep l s s' -> (l = LTls -> c_kind (s_c s) <> KPlain) ->
  tied (s_c s) (s_t s) -> tied (s_c s') (s_t s').
Proof.
  intros l s s' E Hl T.
  assert (Same : forall c' e' t', c_kind c' = c_kind (s_c s) -> c_bio c' = c_bio (s_c s) ->
    tied (s_c (mkSt c' e' (s_t s ++ t'))) (s_t (mkSt c' e' (s_t s ++ t')))).
  { intros c' e' t' K Bi. cbn [s_c s_t]. apply tied_app. unfold tied in *. rewrite K, Bi. exact T. }
  destruct E; try exact T; try (apply Same; reflexivity);
    try (apply (tied_free _ (s_t s)); reflexivity).
  - destruct s as [c e t], s' as [c' e' t']. apply addLog_core in H as (H & _ & Ht & _). cbn [s_c s_t] in *. subst t'.
    core_facts H. unfold tied in *. rewrite CFkind, CFbio. exact T.
  - unfold teardown. destruct (c_kind (s_c s)) eqn:K; [apply Same; [|reflexivity]; exact K|apply tied_free; reflexivity..].
  - split; cbn [s_c s_t].
    + intros K. destruct (Hl eq_refl K).
    + intros b Hb. injection Hb as <-. apply in_or_app. right. left. reflexivity.
Qed.

Lemma kind_step : forall l s s', estep l s s' -> c_kind (s_c s') = c_kind (s_c s).
Proof. intros l s s' E. apply estep_config in E. unfold config in E. congruence. Qed.

Lemma tied_steps : forall P s s', steps P s s' -> tls_fits P (c_kind (s_c s)) ->
  tied (s_c s) (s_t s) -> tied (s_c s') (s_t s').
Proof.
  intros P s s' S. induction S as [|l s1 s2 s3 E HP S IH]; intros F T; [exact T|].
  apply IH; [rewrite (kind_step _ _ _ E); exact F|]. eapply tied_step; [exact E| |exact T].
  intros ->. exact (F HP).
Qed.

(** BIOs have numbers of their own. *)
Definition unmixed (e : env) (t : list event) : Prop :=
  (forall i fd, In (EvBioNew i fd) t -> (i < e_next e)%nat) /\
  (forall i fd fd', In (EvBioNew i fd) t -> In (EvBioNew i fd') t -> fd = fd').

Lemma unmixed_same : forall e e' t l, (e_next e <= e_next e')%nat -> (forall i fd, ~ In (EvBioNew i fd) l) ->
  unmixed e t -> unmixed e' (t ++ l).
Proof.
  intros e e' t l He Hl [A B]. split.
  - intros i fd H. apply in_app_or in H as [H|H]; [|destruct (Hl _ _ H)]. apply A in H. lia.
  - intros i fd fd' H H'. apply in_app_or in H as [H|H]; [|destruct (Hl _ _ H)].
    apply in_app_or in H' as [H'|H']; [|destruct (Hl _ _ H')]. eapply B; eauto.
Qed.

Lemma unmixed_step : forall l s s', estep l s s' -> unmixed (s_e s) (s_t s) -> unmixed (s_e s') (s_t s').
Proof.
  intros l s s' E U.
  assert (Ev : forall ev, (forall i fd, ev <> EvBioNew i fd) -> unmixed (s_e (ev_state s ev)) (s_t (ev_state s ev))).
  { intros ev H. apply (unmixed_same (s_e s)); [reflexivity| |exact U]. intros i fd [X|[]]. exact (H _ _ X). }
  destruct E; try exact U; try (apply Ev; discriminate).
  - destruct H as (_ & _ & _ & _ & H & _). unfold unmixed in *. cbn [s_e s_t]. rewrite H. exact U.
  - destruct s as [c e t], s' as [c' e' t']. apply addLog_core in H as (_ & He & Ht & _). cbn [s_e s_t] in *. subst. exact U.
  - apply Ev. destruct H; discriminate.
  - unfold teardown. destruct (c_kind (s_c s)); cbn [s_e s_t]; (apply (unmixed_same (s_e s)); [reflexivity| |exact U]);
      destruct (c_sock (s_c s) =? 0), (c_ctx (s_c s)), (c_bio (s_c s)); simpl; intros i fd X;
      repeat (destruct X as [X|X]; try discriminate X); exact X.
  - apply Ev. destruct H; discriminate.
  - apply Ev. destruct H; discriminate.
  - apply (unmixed_same (s_e s)); [simpl; lia| |exact U]. intros i fd [X|[]]. discriminate X.
  - destruct U as [A B]. split; cbn [s_e s_t set_next e_next].
    + intros i fd H. apply in_app_or in H as [H|[H|[]]]; [apply A in H; lia|]. injection H as <- _. lia.
    + intros i fd fd' H H'. apply in_app_or in H as [H|[H|[]]], H' as [H'|[H'|[]]].
      * eapply B; eauto.
      * injection H' as <- _. apply A in H. lia.
      * injection H as <- _. apply A in H'. lia.
      * congruence.
Qed.

Lemma in_bio_sockets : forall t i fd, In fd (bio_sockets t i) <-> In (EvBioNew i fd) t.
Proof.
  intros t i fd. unfold bio_sockets. rewrite in_flat_map. split.
  - intros (ev & H & X). destruct ev; try destruct X. destruct (Nat.eqb _ _) eqn:E; [|destruct X].
    apply Nat.eqb_eq in E. destruct X as [<-|[]]. subst. exact H.
  - intros H. eexists. split; [exact H|]. cbn. rewrite Nat.eqb_refl. left. reflexivity.
Qed.

(** What a client refers to: its socket and the socket of its BIO. *)
Definition links : resource := mkResource (acquires sockets) (releases sockets)
  (fun c => nodup Z.eq_dec (refers sockets c ++
     match c_kind c, c_bio c with
     | KPlain, _ | _, None => []
     | _, Some b => if bio_fd b <=? 0 then [] else [bio_fd b]
     end)).

Lemma in_links : forall c x, In x (refers links c) <->
  0 < x /\ (x = c_sock c \/ (c_kind c <> KPlain /\ exists b, c_bio c = Some b /\ x = bio_fd b)).
Proof.
  intros c x. cbn [links refers]. rewrite nodup_In, in_app_iff. cbn [sockets refers]. split.
  - intros [H|H].
    + destruct (c_sock c <=? 0) eqn:E; [destruct H|]. destruct H as [<-|[]]. split; [lia|auto].
    + destruct (c_kind c) eqn:K; [destruct H|..]; (destruct (c_bio c) as [b|] eqn:Bi; [|destruct H]);
        (destruct (bio_fd b <=? 0) eqn:E; [destruct H|]); destruct H as [<-|[]]; (split; [lia|]);
        right; (split; [discriminate|]); exists b; auto.
  - intros [P [-> |(K & b & Bi & ->)]].
    + left. destruct (c_sock c <=? 0) eqn:E; [lia|left; reflexivity].
    + right. rewrite Bi. destruct (c_kind c); [congruence|..]; (destruct (bio_fd b <=? 0) eqn:E; [lia|left; reflexivity]).
Qed.

Lemma same_links : forall c c', c_kind c' = c_kind c -> c_sock c' = c_sock c -> c_bio c' = c_bio c ->
  refers links c' = refers links c.
Proof. intros c c' K S Bi. cbn [links refers sockets]. rewrite K, S, Bi. reflexivity. Qed.

Lemma link_steps : kept_by_steps links.
Proof.
  intros O l s s' E F Hj.
  destruct (estep_shape links l s s' E) as [X|X]; try reflexivity; try (intros; split; reflexivity);
    try (intros z ev []; split; reflexivity).
  - intros c c' H. core_facts H. apply same_links; assumption.
  - apply X. exact Hj.
  - destruct E; destruct X as [X|[X|X]]; try discriminate X; destruct s as [c e t]; cbn [s_c s_e s_t] in *.
    + eapply J_acquire; [exact F|reflexivity| |exact Hj]. intros x Hx. apply in_links in Hx as [P Hx]. destruct Hx as [Hx|Hx].
      * left. destruct r as [n|z]; cbn [c_sock set_sock] in Hx; [left; symmetry; exact Hx|lia].
      * right. apply in_links. auto.
    + unfold teardown. cbn [s_c s_e s_t].
      assert (Cl : forall c' l, Forall (quiet links) l -> refers links c' = [] ->
        J links O (mkSt c' e (t ++ l ++ (if c_sock c =? 0 then [] else [EvClose (c_sock c)])))).
      { intros c' l Q R. rewrite app_assoc. assert (Hq := J_quiets links O l c e t Q Hj).
        destruct (c_sock c =? 0) eqn:Z0.
        - rewrite app_nil_r. eapply J_client; [|exact Hq]. rewrite R. intros x [].
        - eapply J_release; [reflexivity| | |exact Hq].
          + intros x Hx. cbn in Hx. destruct (c_sock c <? 0) eqn:L0; [destruct Hx|]. destruct Hx as [<-|[]].
            apply in_links. split; [lia|auto].
          + rewrite R. intros x []. }
      destruct (c_kind c) eqn:K; [apply (Cl _ []); [constructor|]; cbn [links refers sockets set_sock set_conn c_kind c_sock]; rewrite K; reflexivity|..];
        rewrite app_assoc with (l := match c_ctx c with Some i => [EvCtxFree i] | None => [] end); apply Cl;
        try (destruct (c_ctx c), (c_bio c); repeat constructor);
        cbn [links refers sockets set_sock set_conn set_bio set_ctx c_kind c_sock c_bio]; rewrite K; reflexivity.
    + apply J_quiet; [destruct H; split; reflexivity|exact Hj].
    + eapply J_client; [|exact Hj]. auto.
    + eapply J_client; [|exact Hj]. intros x Hx. apply in_links in Hx as [P [Hx|(_ & b & Hb & _)]]; [|discriminate Hb].
      apply in_links. auto.
    + eapply J_client; [|apply J_quiet; [|exact Hj]; split; reflexivity]. auto.
    + eapply J_client; [|apply J_quiet; [|exact Hj]; split; reflexivity].
      intros x Hx. apply in_links in Hx as [P [Hx|(_ & b & Hb & Hx)]]; apply in_links; [auto|].
      injection Hb as <-. auto.
Qed.

(** The state of one client of the thread; [O]: the sockets of its other clients. *)
Definition L (O : list Z) (s : st) : Prop :=
  orderly (s_t s) /\ unmixed (s_e s) (s_t s) /\ tied (s_c s) (s_t s) /\ (fresh sockets (s_t s) -> J links O s).

Lemma own_bio : forall O s b fd, L O s -> c_bio (s_c s) = Some b -> In fd (bio_sockets (s_t s) (bio_id b)) -> fd = bio_fd b.
Proof.
  intros O s b fd (_ & [_ U] & [_ T] & _) Hb H. apply in_bio_sockets in H. eapply U; [exact H|]. apply T. exact Hb.
Qed.

Lemma own_sure : forall O s b, L O s -> c_bio (s_c s) = Some b ->
  exists fd, forall x, In x (bio_sockets (s_t s) (bio_id b)) <-> x = fd.
Proof.
  intros O s b HL Hb. exists (bio_fd b). intros x. split; [eapply own_bio; eauto|]. intros ->.
  apply in_bio_sockets. apply HL. exact Hb.
Qed.

(** Whatever a client does, it does to its socket or to the socket of its BIO. *)
Lemma L_event : forall O s ev, L O s ->
  (forall fd, In fd (uses (s_t s) ev) -> fd = c_sock (s_c s) \/ exists b, c_bio (s_c s) = Some b /\ fd = bio_fd b) ->
  sure (s_t s) ev -> (forall fd, In fd (releases sockets ev) -> fd = c_sock (s_c s) /\ 0 < fd) -> orderly (s_t s ++ [ev]).
Proof.
  intros O s ev HL H Su R. assert (HL' := HL). destruct HL' as (H1 & _ & (Pl & _) & H2). apply orderly_snoc; [exact H1| |exact Su].
  intros F fd W. apply fresh_prefix in F. destruct (H2 F) as (_ & H3 & _). apply H3. apply in_links.
  destruct W as [[U P]|U].
  - split; [exact P|]. destruct (H fd U) as [-> |(b & Hb & ->)]; [auto|]. right. split; [|eauto]. intros K. specialize (Pl K). congruence.
  - destruct (R fd U). auto.
Qed.

Lemma not_tls : forall t ev, on_tls ev = false -> sure t ev.
Proof. intros t ev H X. congruence. Qed.

Lemma L_sock : forall O s ev, L O s -> on_tls ev = false -> (forall t fd, In fd (uses t ev) -> fd = c_sock (s_c s)) ->
  (forall fd, In fd (releases sockets ev) -> fd = c_sock (s_c s) /\ 0 < fd) -> orderly (s_t s ++ [ev]).
Proof.
  intros O s ev HL T U R. eapply L_event; [exact HL|intros fd H; left; eapply U; exact H|apply not_tls; exact T|exact R].
Qed.

Lemma L_bio : forall O s b ev, L O s -> c_bio (s_c s) = Some b -> uses (s_t s) ev = bio_sockets (s_t s) (bio_id b) ->
  releases sockets ev = [] -> orderly (s_t s ++ [ev]).
Proof.
  intros O s b ev HL Hb U R. eapply L_event; [exact HL| | |rewrite R; intros fd []].
  - rewrite U. intros fd H. right. exists b. split; [exact Hb|eapply own_bio; eauto].
  - intros _. rewrite U. eapply own_sure; eauto.
Qed.

(** Closing down, one action at a time. *)
Lemma L_quiet : forall O c e t ev, L O (mkSt c e t) -> orderly (t ++ [ev]) -> (forall i fd, ev <> EvBioNew i fd) ->
  quiet links ev -> L O (mkSt c e (t ++ [ev])).
Proof.
  intros O c e t ev (H1 & H2 & H3 & H4) Ho N Q. split; [exact Ho|]. split; [|split].
  - cbn [s_e s_t] in *. apply (unmixed_same e); [reflexivity| |exact H2]. intros i fd [X|[]]. exact (N _ _ X).
  - apply tied_app. exact H3.
  - intros F. apply J_quiet; [exact Q|]. apply H4. cbn [s_t] in *. eapply fresh_prefix; exact F.
Qed.

Lemma L_teardown : forall O s, L O s -> orderly (s_t (teardown s)).
Proof.
  intros O [c e t] HL. unfold teardown. cbn [s_c s_e s_t].
  assert (Cl : forall t', L O (mkSt c e t') -> orderly (t' ++ (if c_sock c =? 0 then [] else [EvClose (c_sock c)]))).
  { intros t' HL'. destruct (c_sock c =? 0) eqn:Nz; [rewrite app_nil_r; apply HL'|].
    apply (L_sock O (mkSt c e t') _ HL'); [reflexivity|intros ? fd [<-|[]]; reflexivity|].
    intros fd H. cbn in H. destruct (c_sock c <? 0) eqn:N0; [destruct H|]. destruct H as [<-|[]]. split; [reflexivity|lia]. }
  assert (Ct : forall t', L O (mkSt c e t') -> L O (mkSt c e (t' ++ match c_ctx c with Some i => [EvCtxFree i] | None => [] end))).
  { intros t' HL'. destruct (c_ctx c); [|rewrite app_nil_r; exact HL'].
    apply L_quiet; [exact HL'| |discriminate|split; reflexivity].
    apply (L_sock O (mkSt c e t') _ HL'); [reflexivity|intros ? fd []|intros fd []]. }
  assert (Bf : forall t', L O (mkSt c e t') -> L O (mkSt c e (t' ++ match c_bio c with Some b => [EvBioFree (bio_id b)] | None => [] end))).
  { intros t' HL'. destruct (c_bio c) as [b|] eqn:Bi; [|rewrite app_nil_r; exact HL'].
    apply L_quiet; [exact HL'| |discriminate|split; reflexivity].
    apply (L_bio O (mkSt c e t') b _ HL'); [exact Bi|reflexivity|reflexivity]. }
  destruct (c_kind c); cbn [s_t]; [apply Cl; exact HL|..]; rewrite 2!app_assoc; apply Cl, Bf, Ct, HL.
Qed.

Lemma L_step : forall O l s s', estep l s s' -> (l = LTls -> c_kind (s_c s) <> KPlain) -> L O s -> L O s'.
Proof.
  intros O l s s' E Hl H. assert (H' := H). destruct H' as (H1 & H2 & H3 & H4).
  split; [|split; [eapply unmixed_step; eauto|split; [eapply tied_step; eauto|]]].
  2:{ intros F. eapply link_steps; [exact E|exact F|]. apply H4.
      assert (S : steps (fun _ => True) s s') by (eapply steps_one; [exact E|exact Logic.I]).
      destruct (steps_trace _ _ _ S) as [t T]. rewrite T in F. eapply fresh_prefix; exact F. }
  destruct E; cbn [ev_state c_state s_t]; try exact H1;
    try (apply (L_sock O s _ H); [reflexivity|intros ? fd; simpl; try (intros [<-|[]]; reflexivity); intros []|intros fd []]; fail).
  - apply addLog_core in H0 as (_ & _ & -> & _). exact H1.
  - destruct H0; (apply (L_sock O s _ H); [reflexivity|intros ? fd; simpl; try (intros [<-|[]]; reflexivity); intros []|intros fd []]).
  - eapply L_teardown. exact H.
  - apply (L_bio O s b _ H); [assumption|reflexivity|reflexivity].
  - destruct H0;
      first [apply (L_bio O s b _ H); [assumption|reflexivity|reflexivity]
            |apply (L_sock O s _ H); [reflexivity|intros ? fd; simpl; try (intros [<-|[]]; reflexivity); intros []|intros fd []]].
  - destruct H0; apply (L_bio O s b _ H); solve [assumption|reflexivity].
Qed.

Lemma L_steps : forall P O s s', steps P s s' -> tls_fits P (c_kind (s_c s)) -> L O s -> L O s'.
Proof.
  intros P O s s' S. induction S as [|l s1 s2 s3 E HP S IH]; intros F H; [exact H|].
  apply IH; [rewrite (kind_step _ _ _ E); exact F|]. eapply L_step; [exact E| |exact H]. intros ->. exact (F HP).
Qed.

(** A client that does not use TLS sends without TLS steps. *)
Definition fitting (m : message) (k : clientkind) (l : label) : Prop := any_label m l /\ (l = LTls -> k <> KPlain).
Lemma fitting_fits : forall m k, tls_fits (fitting m k) k.
Proof. intros m k [_ H]. exact (H eq_refl). Qed.
Lemma fitting_base : forall m k l, base l -> fitting m k l.
Proof. intros m k []; simpl; try tauto; intros _; (split; [exact Logic.I|discriminate]). Qed.

Definition no_tls (m : message) (l : label) : Prop := any_but_conn m l /\ l <> LTls.
Lemma no_tls_base : forall m l, base l -> no_tls m l.
Proof. intros m []; simpl; try tauto; intros _; (split; [exact Logic.I|discriminate]). Qed.
Lemma no_tls_conn : forall m, ~ no_tls m LConn.
Proof. intros m [H _]. exact H. Qed.
Lemma no_tls_fitting : forall m l, no_tls m l -> fitting m KPlain l.
Proof. intros m l [A N]. split; [apply any_weak; exact A|]. intros E. destruct (N E). Qed.
Lemma no_tls_write : forall m d, may_write (no_tls m) d.
Proof. intros. split; (split; [exact Logic.I|discriminate]). Qed.

Lemma sendMail_fitting : forall m s, walk (fitting m (c_kind (s_c s))) (sendMail m) s.
Proof.
  intros m s. destruct (c_kind (s_c s)) eqn:K;
    [|eapply walk_mono; [apply sendMail_walk|intros l H; split; [exact H|discriminate]]..].
  unfold sendMail. apply walk_getc. apply walk_bind.
  - destruct (c_conn (s_c s)) eqn:Cn; [apply walk_ret|]. eapply walk_mono; [|apply no_tls_fitting].
    unfold establish. apply walk_getc. rewrite K. apply wplain; first [assumption|exact (no_tls_base m)|exact (no_tls_conn m)|intros; split; [exact Logic.I|discriminate]].
  - intros r s1 _ _. destruct (negb _); [apply walk_ret|].
    apply walk_bind; [eapply walk_updc; [apply es_conn|split; [exact Logic.I|discriminate]]|].
    intros _ s2 _ _. eapply walk_mono; [|apply no_tls_fitting].
    apply wtransaction with (fs := e_fs (s_e s2)); try reflexivity.
    + apply no_tls_base.
    + apply no_tls_conn.
    + intros d _. apply no_tls_write.
    + intros n H. split; [|discriminate]. exists n. exact H.
Qed.

Definition blank : message := mkMsg Plaintext (mkAddr [] []) (AArr []) (AArr []) (AArr []) [] [] (AArr []).
Lemma destroy_fitting : forall k s, walk (fitting blank k) destroy s.
Proof.
  intros k s. unfold destroy. apply walk_bind.
  - apply wcleanup; [apply fitting_base|]. intros _. split; (split; [exact Logic.I|discriminate]).
  - intros. apply walk_ret.
Qed.

(** ** All clients of a thread *)

Definition LG (w : world) : Prop :=
  orderly (w_trace w) /\ unmixed (w_env w) (w_trace w) /\ all_clients tied w /\ (fresh sockets (w_trace w) -> G links w).

Lemma LG_L : forall w i c, LG w -> get_client w i = Some c ->
  exists O, L O (mkSt c (w_env w) (w_trace w)).
Proof.
  intros w i c (H1 & H2 & H3 & H4) E. assert (T := H3 i c E). apply get_split in E as (l1 & l2 & El & _ & _).
  exists (held links l1 ++ held links l2). split; [exact H1|]. split; [exact H2|]. split; [exact T|]. cbn [s_t]. intros F.
  destruct (H4 F) as (G1 & G2 & G3). rewrite El, held_app in G1, G2.
  change (held links (Some c :: l2)) with (refers links c ++ held links l2) in G1, G2.
  apply NoDup_mid in G1 as (N1 & N2 & N3). unfold J; cbn [s_c s_t]. split; [|split]; [| |exact G3].
  - intros y Y. apply G2. rewrite !in_app_iff in *. tauto.
  - intros y Y. split; [apply G2; rewrite !in_app_iff; tauto|]. apply N3. exact Y.
Qed.

Lemma G_step_links : forall o w x w', step o w = (x, w') -> fresh sockets (w_trace w') -> G links w -> G links w'.
Proof.
  intros o w x w' HS F g. eapply G_step; [exact link_steps| | | | | | | | | |exact HS|exact F|exact g].
  - intros c. apply NoDup_nodup.
  - intros k p n c H. unfold client_new in H. destruct (check_server_name p); inversion H. destruct k; reflexivity.
  - intros c c' H. unfold client_copy in H. destruct (c_server c); inversion H. cbn. destruct (c_kind c); reflexivity.
  - intros d c c' H. unfold client_assign in H. destruct (c_server c); inversion H. cbn. destruct (c_kind d); reflexivity.
  - reflexivity.
  - intros c. cbn. destruct (c_kind c); reflexivity.
  - intros d c K. apply same_links; [exact K|reflexivity|reflexivity].
  - intros c p c' H. unfold client_setServerName, obind in H. destruct (check_server_name p); inversion H; reflexivity.
  - intros c. repeat split.
Qed.

Lemma step_quiet_trace : forall o w x w', step o w = (x, w') ->
  match o with OSend _ _ | ODestroy _ => True | _ => w_trace w' = w_trace w end.
Proof.
  intros o w x w' H. destruct o; cbn [step] in H; auto; unfold create, alter in H;
    repeat match type of H with
    | context [match ?a with _ => _ end] => destruct a
    end; inversion H; subst; reflexivity.
Qed.

Lemma tied_world : forall o w x w', step o w = (x, w') -> all_clients tied w -> all_clients tied w'.
Proof.
  intros o w x w' S A. destruct (step_trace _ _ _ _ S) as [t' Tr].
  intros i c' Gc. assert (Og := step_origin _ _ _ _ _ _ S Gc).
  assert (Same : forall j c d, get_client w j = Some c -> c_kind d = c_kind c -> c_bio d = c_bio c -> tied d (w_trace w')).
  { intros j c d Hc K Bi. assert (T := A j c Hc). rewrite Tr. apply tied_app. unfold tied in *. rewrite K, Bi. exact T. }
  destruct Og; try (eapply Same; [eassumption|reflexivity|reflexivity]; fail); try (apply tied_free; reflexivity).
  - unfold client_new in H0. destruct (check_server_name p); inversion H0. apply tied_free; reflexivity.
  - unfold client_copy in H1. destruct (c_server c); inversion H1. apply tied_free; reflexivity.
  - unfold client_assign in H4. destruct (c_server c); inversion H4. apply tied_free; reflexivity.
  - eapply Same; [exact H1|exact H3|reflexivity].
  - subst o. cbn [step] in S. unfold run_on in S. rewrite H0 in S.
    assert (W := proj1 (sendMail_fitting m (mkSt c (w_env w) (w_trace w)))).
    apply tied_steps in W; [|apply fitting_fits|apply (A i c H0)].
    destruct (sendMail m (mkSt c (w_env w) (w_trace w))) as [y s1]. inversion S; subst. cbn [snd] in *. exact W.
  - unfold client_setServerName, obind in H1. destruct (check_server_name p); inversion H1.
    eapply Same; [exact H0|reflexivity|reflexivity].
Qed.

Lemma LG_run_on : forall i (m : M Z) f w x w' P, (forall s, walk (P (c_kind (s_c s))) m s) -> (forall k, tls_fits (P k) k) ->
  run_on i m f w = (x, w') -> LG w -> orderly (w_trace w') /\ unmixed (w_env w') (w_trace w').
Proof.
  intros i m f w x w' P W Ft H g. unfold run_on in H.
  destruct (get_client w i) as [c|] eqn:E; [|inversion H; subst; split; apply g].
  destruct (LG_L _ _ _ g E) as [O HL].
  assert (S := proj1 (W (mkSt c (w_env w) (w_trace w)))).
  destruct (m (mkSt c (w_env w) (w_trace w))) as [o s]. inversion H; subst. cbn [snd w_env w_trace] in *.
  destruct (L_steps _ _ _ _ S (Ft _) HL) as (X & Y & _). split; assumption.
Qed.

Lemma LG_step : forall o w x w', step o w = (x, w') -> LG w -> LG w'.
Proof.
  intros o w x w' H g.
  assert (X : orderly (w_trace w') /\ unmixed (w_env w') (w_trace w')).
  { destruct (step_effect _ _ _ _ H) as [[-> ->]|[(i & m & c & -> & _)|(i & c & -> & _)]]; [split; apply g|..].
    - eapply (LG_run_on i (sendMail m) Some _ _ _ (fitting m)); [intros; apply sendMail_fitting|intros; apply fitting_fits|exact H|exact g].
    - eapply (LG_run_on i destroy (fun _ => None) _ _ _ (fitting blank)); [intros; apply destroy_fitting|intros; apply fitting_fits|exact H|exact g]. }
  destruct X as [X Y]. split; [exact X|]. split; [exact Y|]. split; [eapply tied_world; [exact H|apply g]|].
  intros F. eapply G_step_links; [exact H|exact F|]. apply g.
  destruct (step_trace _ _ _ _ H) as [t T]. rewrite T in F. eapply fresh_prefix; exact F.
Qed.

Lemma LG_run : forall ops w, LG w -> LG (snd (run ops w)).
Proof.
  induction ops as [|o ops IH]; intros w g; cbn [run]; [exact g|].
  destruct (step o w) as [x w1] eqn:E. assert (g1 := LG_step _ _ _ _ E g).
  destruct (continues x); [|exact g1]. specialize (IH w1 g1). destruct (run ops w1). exact IH.
Qed.

Lemma LG_initial : forall e, LG (initial_world e).
Proof.
  intros e. split; [apply orderly_nil|]. split; [split; [intros i fd []|intros i fd fd' []]|]. split.
  - intros i c H. unfold get_client in H. destruct i; discriminate H.
  - intros _. apply G_initial.
Qed.

Lemma run_orderly : forall ops e, orderly (w_trace (snd (run ops (initial_world e)))).
Proof. intros ops e. apply LG_run, LG_initial. Qed.

(** ** All threads *)

Lemma thread_snoc : forall {A} i (T : schedule A) j ev, thread i (T ++ [(j, ev)]) = thread i T ++ (if Nat.eqb j i then [ev] else []).
Proof.
  intros. unfold thread. rewrite filter_app, map_app. simpl. destruct (Nat.eqb j i); reflexivity.
Qed.
Lemma thread_app : forall {A} i (T T' : schedule A), thread i (T ++ T') = thread i T ++ thread i T'.
Proof. intros. unfold thread. rewrite filter_app, map_app. reflexivity. Qed.
Lemma process_snoc : forall {A} (T : schedule A) j ev, process (T ++ [(j, ev)]) = process T ++ [ev].
Proof. intros. unfold process. rewrite map_app. reflexivity. Qed.

Lemma fresh_grow : forall R t ev, fresh R t -> (forall x, In x (acquires R ev) -> ~ In x (open_in R t)) -> fresh R (t ++ [ev]).
Proof.
  intros R t ev H He t1 ev' t2 x E. apply snoc_split in E as [(-> & -> & ->)|(t3 & -> & ->)]; [apply He|].
  intros. eapply H; eauto.
Qed.

(** Each thread sees free descriptors only; what is open in the process is open
    in exactly one thread. *)
Definition apart (T : schedule event) : Prop :=
  (forall i, fresh sockets (thread i T)) /\
  (forall i fd, has i T fd -> In fd (open_in sockets (process T))) /\
  (forall i j fd, i <> j -> has i T fd -> ~ has j T fd).

Lemma apart_snoc : forall T i ev, apart T -> fresh sockets (process (T ++ [(i, ev)])) ->
  (fresh sockets (thread i T ++ [ev]) -> forall fd, wants (thread i T) ev fd -> has i T fd) -> apart (T ++ [(i, ev)]).
Proof.
  intros T i ev (A & B & C) F H.
  assert (N : forall fd, In fd (acquires sockets ev) -> ~ In fd (open_in sockets (process T))).
  { intros fd Hf. apply (F (process T) ev [] fd); [apply process_snoc|exact Hf]. }
  assert (Fi : fresh sockets (thread i T ++ [ev])).
  { apply fresh_grow; [apply A|]. intros x Hx Hy. apply (N x Hx). apply (B i x Hy). }
  specialize (H Fi).
  assert (Ho : forall j fd, has j (T ++ [(i, ev)]) fd <->
    if Nat.eqb i j then In fd (acquires sockets ev) \/ (has j T fd /\ ~ In fd (releases sockets ev)) else has j T fd).
  { intros j fd. unfold has. rewrite thread_snoc. destruct (Nat.eqb i j); [|rewrite app_nil_r; reflexivity].
    rewrite open_snoc, in_open_after. reflexivity. }
  split; [|split].
  - intros j. rewrite thread_snoc. destruct (Nat.eqb i j) eqn:E; [apply Nat.eqb_eq in E; subst; exact Fi|].
    rewrite app_nil_r. apply A.
  - intros j fd Hj. apply Ho in Hj. rewrite process_snoc, open_snoc, in_open_after.
    destruct (Nat.eqb i j) eqn:E.
    + destruct Hj as [Hj|[Hj Hr]]; [left; exact Hj|right]. split; [eapply B; exact Hj|exact Hr].
    + apply Nat.eqb_neq in E. right. split; [eapply B; exact Hj|]. intros Hr.
      apply (C i j fd E); [|exact Hj]. apply H. right. exact Hr.
  - intros j k fd Njk Hj Hk. apply Ho in Hj, Hk.
    destruct (Nat.eqb i j) eqn:Ej, (Nat.eqb i k) eqn:Ek.
    + apply Nat.eqb_eq in Ej, Ek. congruence.
    + destruct Hj as [Hj|[Hj _]]; [|exact (C j k fd Njk Hj Hk)]. apply (N fd Hj). eapply B; exact Hk.
    + destruct Hk as [Hk|[Hk _]]; [|exact (C j k fd Njk Hj Hk)]. apply (N fd Hk). eapply B; exact Hj.
    + exact (C j k fd Njk Hj Hk).
Qed.

Lemma orderly_prefix : forall t t', orderly (t ++ t') -> orderly t.
Proof.
  intros t t' [H Hs]. split.
  - intros p q E. apply (H p (q ++ t')). rewrite E, app_assoc. reflexivity.
  - intros t1 ev t2 E. apply (Hs t1 ev (t2 ++ t')). rewrite E, <- app_assoc. reflexivity.
Qed.

Lemma threads_apart : forall T, (forall i, orderly (thread i T)) -> fresh sockets (process T) -> apart T /\ private_from 1 T.
Proof.
  intros T. induction T as [|[i ev] T IH] using rev_ind; intros O F.
  - split.
    + split; [|split]; [|intros ? ? []|intros ? ? ? ? []]. intros k t1 e2 t2 x E. destruct t1; discriminate E.
    + intros T1 i ev T2 fd E. destruct T1; discriminate E.
  - assert (O' : forall j, orderly (thread j T)).
    { intros j. specialize (O j). rewrite thread_app in O. eapply orderly_prefix; exact O. }
    assert (F' : fresh sockets (process T)) by (rewrite process_snoc in F; eapply fresh_prefix; exact F).
    destruct (IH O' F') as [A Pv].
    assert (Hw : fresh sockets (thread i T ++ [ev]) -> forall fd, wants (thread i T) ev fd -> has i T fd).
    { intros Fi fd W. specialize (O i). rewrite thread_snoc, Nat.eqb_refl in O.
      apply (proj1 O _ [] (eq_sym (app_nil_r _)) Fi (thread i T) ev [] fd eq_refl W). }
    assert (A' := apart_snoc _ _ _ A F Hw). split; [exact A'|].
    intros T1 k ev' T2 fd E U P. apply snoc_split in E as [(-> & E & ->)|(T3 & -> & ->)].
    + injection E as -> ->.
      assert (Fi : fresh sockets (thread i T ++ [ev])).
      { destruct A' as (A1 & _). specialize (A1 i). rewrite thread_snoc, Nat.eqb_refl in A1. exact A1. }
      assert (Hi : has i T fd) by (apply (Hw Fi); left; split; [exact U|lia]). split; [exact Hi|].
      intros j Nj. apply (proj2 (proj2 A) i j fd); [congruence|exact Hi].
    + eapply Pv; eauto.
Qed.

Theorem threads_private : forall P E T, scheduled P E T -> fresh sockets (process T) -> private_from 1 T.
Proof.
  intros P E T S F. apply threads_apart; [|exact F]. intros i. destruct (S i) as [q Q].
  eapply orderly_prefix. rewrite <- Q. apply run_orderly.
Qed.

Lemma orderly_sure : forall T, (forall i, orderly (thread i T)) -> tls_on_one_socket T.
Proof.
  intros T H before i ev after E. subst T. specialize (H i). rewrite thread_app in H.
  unfold thread in H at 2. cbn [filter fst] in H. rewrite Nat.eqb_refl in H. cbn [map snd] in H.
  exact (proj2 H _ _ _ eq_refl).
Qed.

Theorem threads_tls : forall P E T, scheduled P E T -> tls_on_one_socket T.
Proof.
  intros P E T S. apply orderly_sure. intros i. destruct (S i) as [q Q].
  eapply orderly_prefix. rewrite <- Q. apply run_orderly.
Qed.
