(** Failed connection attempts of the Windows build. *)

From Coq Require Import Ascii String List NArith ZArith Bool Lia.
From Verif Require Import Base ModelUtil ModelBase64 ModelAddress ModelAttachment
  ModelErrors ModelReply ModelMessage ModelState ModelClient ModelWorld ModelWin SpecWin
  ProofWin2 ProofWin3 ProofWinRef ProofWinRef2 ProofWinRef3 ProofWinRef4 ProofWinEv.
Import ListNotations.
Open Scope Z_scope.

Definition fine (ev : wevent) : Prop := failed ev = None.
Lemma passive_fine ev : passive ev -> fine ev.
Proof. unfold passive, fine. destruct ev as [[]| | | | | | | | |]; cbn; try reflexivity; discriminate. Qed.
Lemma fine_rel {A} (m : W A) : relW false m -> only fine m.
Proof. intros H v. destruct (H v ltac:(discriminate)) as (_ & _ & tw & E & P & _). exists tw. split; [exact E|]. eapply Forall_impl; [|exact P]. apply passive_fine. Qed.
Lemma fine_base {A} (m : M A) : tame false m -> only fine (base m).
Proof. intros H. now apply fine_rel, rel_base. Qed.
Lemma fine_msg er : only fine (addWSAMessage er).
Proof. intros v. unfold addWSAMessage. destruct (x_format (v_w v) er); [apply fine_base, tame_logc|]. exists []. rewrite app_nil_r. auto. Qed.
Ltac fi := repeat match goal with
  | |- only fine (wbind _ _) => apply only_bind; [|intros ?]
  | |- only fine (base _) => apply fine_base; tam; fail
  | |- only fine (wret _) => apply only_same; reflexivity
  | |- only fine (set_on _) => apply only_same; reflexivity
  | |- only fine get_on => apply only_same; reflexivity
  | |- only fine (next _ _ _) => apply only_next
  | |- only fine (wput _) => apply only_put; reflexivity
  | |- only fine (addWSAMessage _) => apply fine_msg
  | |- only fine (match ?x with _ => _ end) => destruct x
  end.
Lemma fine_doclean : only fine doWSACleanup. Proof. unfold doWSACleanup. fi. Qed.

(** Ends with [c] if it ends normally, without a failed call. *)
Definition fin (c : Z) (m : W Z) : Prop := only fine m /\ forall v r, fst (m v) = Done r -> r = c.
Lemma fin_ret c : fin c (wret c).
Proof. split; [fi|]. intros v r E. now injection E. Qed.
Lemma fin_bind {A} c (m : W A) (k : A -> W Z) : only fine m -> (forall a, fin c (k a)) -> fin c (wbind m k).
Proof.
  intros H J. split; [apply only_bind; [exact H|]; intros; apply J|]. intros v r. unfold wbind. destruct (m v) as [[a| | | | |] w]; try discriminate. apply J.
Qed.
Definition fz (m : W Z) : Prop := forall v, exists tw, v_t (snd (m v)) = v_t v ++ tw /\
  forall ev c, In ev tw -> failed ev = Some c -> forall r, fst (m v) = Done r -> r = c.
Lemma fz_fine m : only fine m -> fz m.
Proof. intros H v. destruct (H v) as (tw & E & F). exists tw. split; [exact E|]. intros ev c I X. rewrite Forall_forall in F. specialize (F ev I). unfold fine in F. congruence. Qed.
Lemma fz_bind {A} (m : W A) (k : A -> W Z) : only fine m -> (forall a, fz (k a)) -> fz (wbind m k).
Proof.
  intros H J v. destruct (H v) as (l & E & F). unfold wbind. destruct (m v) as [[a| | | | |] w]; cbn [fst snd] in *; try (exists l; split; [exact E|discriminate]).
  destruct (J a w) as (l2 & E2 & F2). exists (l ++ l2). split; [now rewrite E2, E, app_assoc|]. intros ev c I X. apply in_app_or in I as [I|I]; [|now apply (F2 ev)].
  rewrite Forall_forall in F. specialize (F ev I). unfold fine in F. congruence.
Qed.
Lemma fz_fail {A} c (m : W A) (k : A -> W Z) : only (fun ev => failed ev = None \/ failed ev = Some c) m -> (forall a, fin c (k a)) -> fz (wbind m k).
Proof.
  intros H J v. destruct (H v) as (l & E & F). unfold wbind. destruct (m v) as [[a| | | | |] w]; cbn [fst snd] in *; try (exists l; split; [exact E|discriminate]).
  destruct (J a) as [J1 J2]. destruct (J1 w) as (l2 & E2 & F2). exists (l ++ l2). split; [now rewrite E2, E, app_assoc|].
  intros ev d I X r D. rewrite (J2 _ _ D). rewrite Forall_forall in F, F2. apply in_app_or in I as [I|I].
  - destruct (F ev I); congruence.
  - specialize (F2 ev I). unfold fine in F2. congruence.
Qed.
Lemma fz_connect (k : option Z -> W Z) : fz (k None) -> (forall er, fin (-2) (k (Some er))) -> fz (wbind (base sys_connect) k).
Proof.
  intros H J v.
  assert (X : exists r e, base sys_connect v = (Done r, mkV (v_c v) (v_on v) e (v_w v) (v_t v ++ [WSock (EvConnect (c_sock (v_c v)) (c_port (v_c v) mod 65536)%N (match r with None => true | Some _ => false end))]))).
  { unfold base, sys_connect, bind, getc, gete, upde, emit, ret. cbn. destruct (e_conn (v_e v)) as [|r l]; cbn.
    - exists None. eexists. reflexivity.
    - exists r. eexists. reflexivity. }
  destruct X as (r & e & E). unfold wbind. rewrite E. set (w := mkV _ _ _ _ _). destruct r as [er|].
  - destruct (J er) as [J1 J2]. destruct (J1 w) as (l & E2 & F). eexists. split; [rewrite E2; cbn [v_t w]; rewrite <- app_assoc; reflexivity|].
    intros ev c I X r D. rewrite (J2 _ _ D). rewrite Forall_forall in F. destruct I as [<-|I]; [cbn in X; congruence|]. specialize (F ev I). unfold fine in F. congruence.
  - destruct (H w) as (l & E2 & F). eexists. split; [rewrite E2; cbn [v_t w]; rewrite <- app_assoc; reflexivity|].
    intros ev c I X. destruct I as [<-|I]; [discriminate|]. now apply (F ev).
Qed.
Ltac fn := repeat match goal with
  | |- fin _ (doWSACleanup ;;# _) => apply fin_bind; [apply fine_doclean|intros ?]
  | |- fin _ (wbind _ _) => apply fin_bind; [fi; fail|intros ?]
  | |- fin _ (wret _) => apply fin_ret
  end.
Lemma fz_init : fz initializeSessionW.
Proof.
  unfold initializeSessionW. apply fz_bind; [fi|]. intros _. unfold initializeSessionWinSock. apply fz_bind; [fi|]. intros st.
  destruct (st =? 0) eqn:S0; cbn [negb].
  2:{ apply fz_fail with (c := -4); [apply only_put; right; cbn; now rewrite S0|]. intros _. fn. }
  apply fz_bind; [apply only_put; unfold fine; cbn; now rewrite S0|]. intros _. apply fz_bind; [fi|]. intros _. apply fz_bind; [fi|]. intros c.
  apply fz_bind; [fi|]. intros ga. destruct (ga =? 0) eqn:G0; cbn [negb].
  2:{ apply fz_fail with (c := -5); [apply only_put; right; cbn; now rewrite G0|]. intros _. fn. }
  apply fz_bind; [apply only_put; unfold fine; cbn; now rewrite G0|]. intros _. apply fz_bind; [fi|]. intros e.
  destruct (e_sock e) as [|[n|er] l]; [apply fz_fine; fi| |].
  - apply fz_bind.
    + intros v. unfold base, bind, upde, emit, updc. cbn. eexists. split; [reflexivity|]. repeat constructor.
    + intros _. destruct (c_server c); [|apply fz_fine; fi]. apply fz_bind; [fi|]. intros _. apply fz_connect; [apply fz_fine; fi|]. intros er. fn.
  - apply fz_fail with (c := -1).
    + intros v. unfold base, bind, upde, emit, updc. cbn. eexists. split; [reflexivity|]. constructor; [right; reflexivity|constructor].
    + intros _. fn.
Qed.

Lemma failed_code ev c : failed ev = Some c -> c <> 0.
Proof. destruct ev as [[]| | | | | | | | |]; cbn; try discriminate; try (destruct (_ =? _)); try (destruct r); try (destruct ok); intros E; try discriminate E; injection E as <-; discriminate. Qed.

(** The events of a failed start are those of the attempt alone. *)
Definition alone (m : W Z) : Prop := forall v, exists tw, v_t (snd (m v)) = v_t v ++ tw /\
  forall ev c, In ev tw -> failed ev = Some c -> forall r, fst (m v) = Done r -> r = c /\ Forall quiet tw.
Lemma alone_establish v : exists tw, v_t (snd (establishW v)) = v_t v ++ tw /\
  forall ev c, In ev tw -> failed ev = Some c -> forall r, fst (establishW v) = Done r -> r = c /\ Forall quiet tw.
Proof.
  rewrite establish_eq. unfold wbind. destruct (fz_init v) as (tw & E & F). pose proof (init_facts v) as I. destruct (initializeSessionW v) as [o v1]. cbn [fst snd] in *.
  destruct I as ((K1 & _) & On & tw2 & E2 & Q & _). rewrite E2 in E. apply app_inv_head in E. subst tw2.
  destruct o as [r| | | | |]; try (exists tw; split; [exact E2|]; discriminate).
  destruct (r =? 0) eqn:R0; cbn [negb].
  - apply Z.eqb_eq in R0. subst r. pose proof (rel_rest false v1 (On eq_refl)) as H. rewrite K1 in H. destruct (rest (c_kind (v_c v)) v1) as [o v2]. cbn [fst snd] in *.
    destruct (H ltac:(discriminate)) as (_ & _ & t2 & E3 & P & _). exists (tw ++ t2). split; [now rewrite E3, E2, app_assoc|].
    intros ev c I X. exfalso. apply in_app_or in I as [I|I].
    + apply (failed_code _ _ X). symmetry. exact (F ev c I X 0 eq_refl).
    + rewrite Forall_forall in P. specialize (passive_fine _ (P ev I)). unfold fine. congruence.
  - exists tw. split; [exact E2|]. cbn. intros ev c I X r0 D. split; [now apply (F ev c I X)|exact Q].
Qed.
Lemma alone_send m : alone (sendMailW m).
Proof.
  intros v.
  assert (EQ : sendMailW m v = (r <# (if c_conn (v_c v) then wret 0 else establishW) ;; if negb (r =? 0) then wret r else connected_part m) v).
  { unfold sendMailW. unfold wbind at 1. unfold base at 1. unfold getc at 1. cbn [s_c s_e s_t map v_c v_e]. rewrite app_nil_r. destruct v; reflexivity. }
  rewrite EQ. clear EQ.
  assert (CP : only fine (connected_part m)).
  { unfold connected_part. apply only_bind; [|intros; apply fine_rel, rel_transaction]. intros w. exists []. cbn. rewrite app_nil_r. auto. }
  unfold wbind. destruct (c_conn (v_c v)).
  - cbn. destruct (CP v) as (tw & E & F). exists tw. split; [exact E|]. intros ev c I X. rewrite Forall_forall in F. specialize (F ev I). unfold fine in F. congruence.
  - destruct (alone_establish v) as (tw & E & F). destruct (establishW v) as [[r| | | | |] v1]; cbn [fst snd] in *; try (exists tw; split; [exact E|]; discriminate).
    destruct (r =? 0) eqn:R0; cbn [negb].
    + apply Z.eqb_eq in R0. subst r. destruct (CP v1) as (t2 & E2 & F2). exists (tw ++ t2). split; [now rewrite E2, E, app_assoc|].
      intros ev c I X. exfalso. apply in_app_or in I as [I|I].
      * apply (failed_code _ _ X). symmetry. exact (proj1 (F ev c I X 0 eq_refl)).
      * rewrite Forall_forall in F2. specialize (F2 ev I). unfold fine in F2. congruence.
    + exists tw. split; [exact E|]. intros ev c I X r0 D. cbn in D; injection D as <-. exact (F ev c I X r eq_refl).
Qed.
Lemma failed_start i m w r w' t ev c : wstep (OSend i m) w = (Done r, w') -> ww_trace w' = ww_trace w ++ t ->
  In ev t -> failed ev = Some c -> r = c /\ forall e, In (WSock e) t -> transfers e = false.
Proof.
  cbn [wstep]. unfold run_onW. destruct (get_client (ww w) i) as [cl|]; [|discriminate].
  match goal with |- context [sendMailW m ?v] => destruct (alone_send m v) as (tw & E & F); destruct (sendMailW m v) as [o v'] end. cbn [fst snd v_t] in *.
  intros X T I Y. injection X as -> <-. cbn in T. rewrite E in T. apply app_inv_head in T. subst t. destruct (F ev c I Y r eq_refl) as [-> Q]. split; [reflexivity|].
  intros e J. rewrite Forall_forall in Q. exact (Q _ J).
Qed.
