(** Ownership of sockets and TLS objects in the Windows build (compare
    ProofOwn.v). *)

From Coq Require Import Ascii String List NArith ZArith Bool Lia ZifyBool ZifyNat ZifyN.
From Verif Require Import Base Lib ModelUtil ModelBase64 ModelAddress ModelAttachment
  ModelErrors ModelReply ModelMessage ModelState ModelClient ModelWorld
  ProofSteps ProofWalk ProofPhases ProofEstablish ProofLog ProofSend ProofWorld SpecOwn ProofOwn
  ModelWin ProofWinWalk ProofWinWalk2 ProofWinEst SpecWinSafe ProofWinSafe.
Import ListNotations.
Open Scope Z_scope.

Lemma wrun_trace : forall ops w, exists t, socks (ww_trace (snd (wrun ops w))) = socks (ww_trace w) ++ t.
Proof.
  assert (Step : forall o w, exists t, socks (ww_trace (snd (wstep o w))) = socks (ww_trace w) ++ t).
  { intros o w. destruct (wstep o w) as [x w1] eqn:E. cbn [snd]. destruct (acts o) eqn:Ac.
    2:{ apply wstep_other in E as (_ & _ & -> & _); [|assumption]. exists []. symmetry. apply app_nil_r. }
    destruct o; try discriminate Ac; (destruct (get_client (ww w) i) as [c|] eqn:G;
      [|apply run_onW_none in E as [_ ->]; [|assumption]; exists []; symmetry; apply app_nil_r]).
    - apply (run_onW_some i (sendMailW m) Some w c) in E as (_ & _ & _ & -> & _); [|assumption].
      eapply ww_trace_grows with (v := wview w i c). apply sendMailW_walk.
    - apply (run_onW_some i destroyW (fun _ => None) w c) in E as (_ & _ & _ & -> & _); [|assumption].
      eapply ww_trace_grows with (v := wview w i c). apply destroyW_walk. }
  induction ops as [|o ops IH]; intros w; cbn [wrun]; [exists []; rewrite app_nil_r; reflexivity|].
  destruct (Step o w) as [t T]. destruct (wstep o w) as [x w1]. cbn [snd] in T.
  destruct (continues x); [|exists t; exact T]. destruct (IH w1) as [t' T'].
  destruct (wrun ops w1) as [xs w2]. cbn [snd] in *. exists (t ++ t'). rewrite T', T, app_assoc. reflexivity.
Qed.

Section Own.
Variable R : resource.
Hypothesis K : kept_by_steps R.
Hypothesis N1 : forall c, NoDup (refers R c).

Lemma G_runW : forall i (m : W Z) f w x w' P,
  (forall c, (forall y, In y (refers' R (f c)) -> In y (refers R c)) /\ NoDup (refers' R (f c))) ->
  (forall v, wwalk P m v) -> run_onW i m f w = (x, w') -> fresh R (socks (ww_trace w')) -> G R (pw w) -> G R (pw w').
Proof.
  intros i m f w x w' P Hf W H F (G1 & G2 & G3).
  destruct (get_client (ww w) i) as [c|] eqn:E.
  2:{ apply run_onW_none in H as [_ ->]; [|assumption]. repeat split; assumption. }
  apply (run_onW_some i m f w c) in H as (_ & Cl & _ & T & _); [|assumption].
  change (get_client (pw w) i = Some c) in E. apply get_split in E as (l1 & l2 & El & _ & Es).
  change (w_clients (pw w)) with (w_clients (ww w)) in *.
  assert (W' := proj1 (W (wview w i c))).
  assert (X : J R (held R l1 ++ held R l2) (proj (wview w i c))).
  { rewrite El, held_app in G1, G2. simpl in G1, G2. apply NoDup_mid in G1 as (A1 & A2 & A3).
    unfold J. cbn [proj wview s_c s_t v_c v_t]. repeat split; [| | |exact G3].
    - intros y Y. apply G2. rewrite !in_app_iff in *. tauto.
    - apply G2. rewrite !in_app_iff. tauto.
    - apply A3. exact H. }
  rewrite T in F. apply (steps_J R K _ _ _ _ W' F) in X as (X1 & X2 & X3).
  unfold G, pw. cbn [w_clients w_trace]. rewrite Cl, T, Es, held_app. cbn [held flat_map].
  destruct (Hf (v_c (snd (m (wview w i c))))) as [Hf1 Hf2].
  rewrite El, held_app in G1. simpl in G1. apply NoDup_mid in G1 as (A1 & A2 & A3).
  split; [|split; [|exact X3]].
  - apply NoDup_mid. repeat split; [exact Hf2|exact A2|].
    intros y Y. apply X2. apply Hf1. exact Y.
  - intros y Y. rewrite !in_app_iff in Y. destruct Y as [Y|[Y|Y]].
    + apply X1. apply in_app_iff; auto.
    + apply X2. apply Hf1. exact Y.
    + apply X1. apply in_app_iff; auto.
Qed.

Hypothesis Step : forall o w x w', step o w = (x, w') -> fresh R (w_trace w') -> G R w -> G R w'.

Lemma G_wstep : forall o w x w', wstep o w = (x, w') -> fresh R (socks (ww_trace w')) -> G R (pw w) -> G R (pw w').
Proof.
  intros o w x w' S F g. destruct (acts o) eqn:Ac.
  2:{ apply wstep_other in S as [S _]; [|assumption]. eapply Step; [exact S|exact F|exact g]. }
  destruct o; try discriminate Ac.
  - eapply (G_runW i (sendMailW m) Some); [|intros; apply sendMailW_walk|exact S|exact F|exact g]. intros c. simpl. auto.
  - eapply (G_runW i destroyW (fun _ => None)); [|intros; apply destroyW_walk|exact S|exact F|exact g].
    intros c. simpl. split; [intros y []|constructor].
Qed.
Lemma G_wrun : forall ops w, fresh R (socks (ww_trace (snd (wrun ops w)))) -> G R (pw w) -> G R (pw (snd (wrun ops w))).
Proof.
  induction ops as [|o ops IH]; intros w F g; [exact g|]. cbn [wrun] in *.
  destruct (wstep o w) as [x w1] eqn:E. destruct (continues x).
  - assert (T := wrun_trace ops w1). specialize (IH w1). destruct (wrun ops w1) as [xs w2]. cbn [snd] in *.
    destruct T as [t T]. apply IH; [exact F|]. eapply G_wstep; [exact E| |exact g]. rewrite T in F. eapply fresh_prefix; eauto.
  - cbn [snd] in *. eapply G_wstep; eauto.
Qed.
Lemma G_winitial : forall e x, G R (pw (initial_wworld e x)).
Proof. intros e x. exact (G_initial R e). Qed.
End Own.

Lemma numbered_wrun : forall R,
  (forall ev, acquires R ev = [] \/ exists i, acquires R ev = [Z.of_nat i] /\ (ev = EvCtxNew i \/ exists fd, ev = EvBioNew i fd)) ->
  forall e xe ops, fresh R (socks (ww_trace (snd (wrun ops (initial_wworld e xe))))).
Proof.
  intros R HR e xe ops.
  set (I := fun w => ids_below R (e_next (w_env (ww w))) (socks (ww_trace w)) /\ fresh R (socks (ww_trace w))).
  cut (I (snd (wrun ops (initial_wworld e xe)))); [intros [_ X]; exact X|].
  apply (wrun_inv (fun _ => True)); [|auto|].
  - intros o w x w' _ S [A Bf]. unfold I. destruct (acts o) eqn:Ac.
    2:{ assert (S' := S). apply wstep_other in S as (S & _ & T & _); [|assumption]. rewrite T.
        assert (w_env (ww w') = w_env (ww w)) as ->; [|split; assumption].
        apply step_effect in S as [[_ E]|[(i & m & c & -> & _)|(i & c & -> & _)]]; [exact E|discriminate Ac|discriminate Ac]. }
    destruct o; try discriminate Ac; (destruct (get_client (ww w) i) as [c|] eqn:Gc;
      [|apply run_onW_none in S as [_ ->]; [|assumption]; split; assumption]).
    + apply (run_onW_some i (sendMailW m) Some w c) in S as (_ & _ & -> & -> & _); [|assumption].
      assert (W := proj1 (sendMailW_walk m (wview w i c))).
      apply (steps_inv _ (numbered R) _ _ (fun l s s' _ E => numbered_estep R l s s' E HR) W). split; assumption.
    + apply (run_onW_some i destroyW (fun _ => None) w c) in S as (_ & _ & -> & -> & _); [|assumption].
      assert (W := proj1 (destroyW_walk (wview w i c))).
      apply (steps_inv _ (numbered R) _ _ (fun l s s' _ E => numbered_estep R l s s' E HR) W). split; assumption.
  - split; simpl; [intros ev x []|]. intros t1 ev t2 x E. destruct t1; discriminate E.
Qed.

(** ** The statements *)

Lemma own_win : forall R w, G R (pw w) -> ownership R w.
Proof. intros R w g. apply G_facts in g as (A & Bh & C). split; [exact A|]. split; [exact Bh|]. exact C. Qed.

Lemma own_socketsW : forall e xe ops, fresh sockets (common (ww_trace (snd (wrun ops (initial_wworld e xe))))) ->
  ownership sockets (snd (wrun ops (initial_wworld e xe))).
Proof.
  intros e xe ops F. assert (N : forall c, NoDup (refers sockets c)) by own_tac.
  assert (S : forall o w x w', step o w = (x, w') -> fresh sockets (w_trace w') -> G sockets w -> G sockets w').
  { intros o w x w'. apply G_step; try exact sock_steps; own_tac. }
  apply own_win. apply G_wrun; auto; [exact sock_steps|apply G_winitial].
Qed.
Lemma own_contextsW : forall e xe ops, ownership contexts (snd (wrun ops (initial_wworld e xe))).
Proof.
  intros e xe ops. assert (F : fresh contexts (socks (ww_trace (snd (wrun ops (initial_wworld e xe)))))).
  { apply numbered_wrun. intros []; simpl; eauto 6. }
  assert (N : forall c, NoDup (refers contexts c)) by own_tac.
  assert (S : forall o w x w', step o w = (x, w') -> fresh contexts (w_trace w') -> G contexts w -> G contexts w').
  { intros o w x w'. apply G_step; try exact ctx_steps; own_tac. }
  apply own_win. apply G_wrun; auto; [exact ctx_steps|apply G_winitial].
Qed.
Lemma own_biosW : forall e xe ops, ownership bios (snd (wrun ops (initial_wworld e xe))).
Proof.
  intros e xe ops. assert (F : fresh bios (socks (ww_trace (snd (wrun ops (initial_wworld e xe)))))).
  { apply numbered_wrun. intros []; simpl; eauto 6. }
  assert (N : forall c, NoDup (refers bios c)) by own_tac.
  assert (S : forall o w x w', step o w = (x, w') -> fresh bios (w_trace w') -> G bios w -> G bios w').
  { intros o w x w'. apply G_step; try exact bio_steps; own_tac. }
  apply own_win. apply G_wrun; auto; [exact bio_steps|apply G_winitial].
Qed.
