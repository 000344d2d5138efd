(** The settings of clients in the Windows build (compare ProofConfig.v). *)

From Coq Require Import Ascii String List NArith ZArith Bool Lia.
From Verif Require Import Base Lib ModelUtil ModelBase64 ModelAddress ModelAttachment
  ModelErrors ModelReply ModelMessage ModelState ModelClient ModelWorld SpecConfig ProofSteps ProofSend ProofConfig ProofLog
  ModelWin ProofWinWalk ProofWinWalk2 ProofWinEst SpecWinSafe ProofWinSafe.
Import ListNotations.
Open Scope nat_scope.
Notation entry := SpecConfig.entry.
Notation shown := SpecConfig.shown.

Lemma wstep_showing : forall o w x w', wstep o w = (x, w') -> showing (ww w') = intended (showing (ww w)) (o, x).
Proof.
  intros o w x w' H. destruct (acts o) eqn:Ac.
  2:{ apply wstep_other in H as (_ & H & _); [|assumption]. exact (step_showing _ _ _ _ H). }
  destruct o; try discriminate Ac.
  - destruct (get_client (ww w) i) as [c|] eqn:G.
    2:{ apply run_onW_none in H as [-> ->]; [|assumption]. reflexivity. }
    apply (run_onW_some i (sendMailW m) Some w c) in H as (_ & Cl & _); [|assumption].
    assert (S := proj1 (sendMailW_walk m (wview w i c))). apply steps_shown in S.
    change (shown (v_c (snd (sendMailW m (wview w i c)))) = shown c) in S.
    unfold showing at 1. rewrite Cl, replace_map. cbn [option_map]. rewrite S.
    replace (Some (shown c)) with (entry (showing (ww w)) i) by (rewrite entry_showing, G; reflexivity).
    change (replace (showing (ww w)) i (entry (showing (ww w)) i) = intended (showing (ww w)) (OSend i m, x)). rewrite replace_same.
    cbn [intended effect]. destruct x; reflexivity.
  - cbn [intended]. destruct (get_client (ww w) i) as [c|] eqn:G.
    + apply (run_onW_some i destroyW (fun _ => None) w c) in H as (_ & Cl & _); [|assumption].
      unfold showing at 1. now rewrite Cl, replace_map.
    + apply run_onW_none in H as [_ ->]; [|assumption]. symmetry. apply replace_out; [now apply showing_get|discriminate].
Qed.

Lemma wrun_showing : forall ops w, showing (ww (snd (wrun ops w))) = fold_left intended (combine ops (fst (wrun ops w))) (showing (ww w)).
Proof.
  induction ops as [|o r IH]; intros w; [reflexivity|]. cbn [wrun]. destruct (wstep o w) as [x w'] eqn:E.
  assert (S := wstep_showing _ _ _ _ E). destruct (continues x) eqn:C.
  - specialize (IH w'). destruct (wrun r w') as [xs w''] eqn:R. cbn [fst snd combine fold_left] in *. now rewrite <- S.
  - cbn [fst snd combine]. destruct r; cbn [combine fold_left]; now rewrite <- S.
Qed.

Lemma settings_keptW : forall ops e x,
  map (option_map shown) (w_clients (ww (snd (wrun ops (initial_wworld e x))))) =
  fold_left intended (combine ops (fst (wrun ops (initial_wworld e x)))) [].
Proof. intros. exact (wrun_showing ops (initial_wworld e x)). Qed.
