(** Proofs about the settings of clients (C67). *)

From Coq Require Import Ascii String List NArith ZArith Bool Lia.
From Verif Require Import Base Lib ModelUtil ModelBase64 ModelAddress ModelAttachment
  ModelErrors ModelReply ModelMessage ModelState ModelClient ModelWorld SpecConfig ProofSteps ProofSend.
Import ListNotations.
Open Scope nat_scope.

Lemma steps_shown : forall P a b, steps P a b -> shown (s_c b) = shown (s_c a).
Proof.
  intros P a b H. induction H; [reflexivity|]. rewrite IHsteps. destruct H; try reflexivity.
  - unfold addLog, bind, getc in H. destruct (c_log (s_c s)); [|discriminate H]. cbv zeta in H.
    repeat match type of H with (if ?b then _ else _) _ = _ => destruct b end; inversion H; reflexivity.
  - unfold teardown. destruct (c_kind (s_c s)) eqn:K; unfold shown; cbn; now rewrite K.
Qed.

Definition showing (w : world) : table := map (option_map shown) (w_clients w).

Lemma entry_showing : forall w i, entry (showing w) i = option_map shown (get_client w i).
Proof.
  intros w i. unfold entry, showing, get_client. revert i. induction (w_clients w) as [|x r IH]; intros [|i]; cbn; try reflexivity.
  - destruct x; reflexivity.
  - apply IH.
Qed.
Lemma replace_map : forall l i v, map (option_map shown) (list_set l i v) = replace (map (option_map shown) l) i (option_map shown v).
Proof. induction l as [|x r IH]; intros [|i] v; cbn; try reflexivity. now rewrite IH. Qed.
Lemma showing_put : forall i v w, showing (put_client i v w) = replace (showing w) i (option_map shown v).
Proof. intros. apply replace_map. Qed.
Lemma showing_push : forall c w, showing (push_client c w) = showing w ++ [Some (shown c)].
Proof. intros. unfold showing, push_client. cbn. now rewrite map_app. Qed.
Lemma replace_same : forall l i, replace l i (entry l i) = l.
Proof. induction l as [|x r IH]; intros [|i]; cbn; try reflexivity. f_equal. apply IH. Qed.
Lemma replace_out : forall l i v, entry l i = None -> (forall g, v = Some g -> length l <= i) -> replace l i v = l.
Proof.
  induction l as [|x r IH]; intros [|i] v E H; cbn in *; try reflexivity.
  - destruct v as [g|]; [specialize (H g eq_refl); lia|]. unfold entry in E. cbn in E. now subst.
  - f_equal. apply IH; [exact E|]. intros g X. specialize (H g X). lia.
Qed.
Lemma showing_get : forall w i, get_client w i = None -> entry (showing w) i = None.
Proof. intros. rewrite entry_showing, H. reflexivity. Qed.

Lemma alter_showing : forall i f w x w', alter i f w = (x, w') ->
  (forall c c', f c = Done c' -> get_client w i = Some c -> True) ->
  match x with
  | Done _ => exists c c', get_client w i = Some c /\ f c = Done c' /\ showing w' = replace (showing w) i (Some (shown c'))
  | _ => w' = w
  end.
Proof.
  intros i f w x w' H _. unfold alter in H. destruct (get_client w i) as [c|] eqn:G; [|inversion H; reflexivity].
  destruct (f c) eqn:F; inversion H; subst; try reflexivity. exists c, a. repeat split; auto. apply showing_put.
Qed.

Lemma change_replace : forall w i f c, get_client w i = Some c -> change (showing w) i f = replace (showing w) i (Some (f (shown c))).
Proof. intros. unfold change. rewrite entry_showing, H. reflexivity. Qed.

Lemma entry_other : forall l i j v, i <> j -> entry (replace l i v) j = entry l j.
Proof. induction l as [|y r IH]; intros [|i] [|j] v N; cbn; try reflexivity; [congruence|]. apply (IH i j v). congruence. Qed.

Lemma step_showing : forall o w x w', step o w = (x, w') -> showing w' = intended (showing w) (o, x).
Proof.
  intros o w x w' H.
  assert (AL : forall i f g, alter i f w = (x, w') -> (forall c c', get_client w i = Some c -> f c = Done c' -> shown c' = g (shown c)) ->
    showing w' = match x with Done _ => change (showing w) i g | _ => showing w end).
  { intros i f g A K. apply alter_showing in A; [|auto]. destruct x; try (now subst). destruct A as (c & c' & G & F & ->).
    erewrite change_replace by eassumption. now rewrite (K _ _ G F). }
  destruct o; cbn [step] in H.
  - unfold create, client_new in H. cbn [intended].
    destruct (check_server_name server) as [name| | | | |] eqn:E; cbn [obind] in H; inversion H; subst; try reflexivity.
    rewrite showing_push. unfold shown. cbn. repeat f_equal.
    unfold check_server_name in E. destruct server; cbn [obind] in *.
    + destruct (null_or_blank _) as [[|]| | | | |]; cbn [obind] in E; inversion E; reflexivity.
    + cbn in E. discriminate E.
  - cbn [intended]. destruct (get_client w src) as [c|] eqn:G; [|inversion H; reflexivity].
    unfold create, client_copy in H. destruct (c_server c) eqn:S; inversion H; subst; [|reflexivity].
    rewrite showing_push. cbn [effect]. rewrite entry_showing, G. cbn. unfold shown at 1. cbn. unfold shown. now rewrite S.
  - cbn [intended]. destruct (get_client w src) as [c|] eqn:G; [|inversion H; reflexivity]. inversion H; subst.
    rewrite showing_push, showing_put. cbn [effect]. erewrite change_replace by eassumption. rewrite entry_showing, G. reflexivity.
  - cbn [intended]. destruct (get_client w dst) as [d|] eqn:Gd; [|inversion H; reflexivity].
    destruct (get_client w src) as [c|] eqn:Gs; [|inversion H; reflexivity].
    destruct (Nat.eqb dst src) eqn:Eq.
    + inversion H; subst. cbn [effect]. apply Nat.eqb_eq in Eq. subst src. rewrite entry_showing, Gs. cbn [option_map].
      erewrite change_replace by eassumption. rewrite Gd in Gs. inversion Gs; subst. symmetry.
      replace (Some (given_to (shown c) (shown c))) with (entry (showing w') dst) by (rewrite entry_showing, Gd; reflexivity). apply replace_same.
    + destruct (kind_eqb _ _); [|inversion H; reflexivity].
      rewrite (AL dst _ (fun d => given_to d (shown c)) H).
      * destruct x; try reflexivity. cbn [effect]. now rewrite entry_showing, Gs.
      * intros c0 c' _ A. unfold client_assign in A. destruct (c_server c) eqn:S; inversion A; subst. unfold shown, given_to. cbn. now rewrite S.
  - cbn [intended]. destruct (get_client w dst) as [d|] eqn:Gd; [|inversion H; reflexivity].
    destruct (get_client w src) as [c|] eqn:Gs; [|inversion H; reflexivity].
    destruct (Nat.eqb dst src) eqn:Eq.
    + inversion H; subst. cbn [effect]. now rewrite Eq.
    + destruct (kind_eqb _ _); [|inversion H; reflexivity]. inversion H; subst. cbn [effect]. rewrite Eq, entry_showing, Gs. cbn [option_map].
      rewrite showing_put, showing_put. erewrite (change_replace w dst) by eassumption.
      unfold change.
      assert (X : entry (replace (showing w) dst (Some (given_to (shown d) (shown c)))) src = Some (shown c)).
      { rewrite entry_other by (intro; subst; now rewrite Nat.eqb_refl in Eq). now rewrite entry_showing, Gs. }
      rewrite X. reflexivity.
  - unfold run_on in H. destruct (get_client w i) as [c|] eqn:G; [|inversion H; reflexivity].
    assert (W := proj1 (sendMail_walk m (mkSt c (w_env w) (w_trace w)))). apply steps_shown in W. cbn [s_c] in W.
    destruct (sendMail m (mkSt c (w_env w) (w_trace w))) as [o s] eqn:E. cbn [snd] in W. inversion H; subst.
    unfold showing at 1. cbn [w_clients]. rewrite replace_map. cbn [option_map]. rewrite W.
    replace (Some (shown c)) with (entry (showing w) i) by (rewrite entry_showing, G; reflexivity).
    change (replace (showing w) i (entry (showing w) i) = intended (showing w) (OSend i m, x)). rewrite replace_same.
    cbn [intended effect]. destruct x; reflexivity.
  - rewrite (AL i _ (fun g => mkSettings (g_class g) (text_of server) (g_port g) (g_batch g) (g_timeout g) (g_credential g) (g_selfsigned g)) H).
    { destruct x; reflexivity. }
    intros c c' G F. unfold client_setServerName, check_server_name in F. destruct server as [nm|].
    + destruct (null_or_blank _) as [[|]| | | | |]; cbn [obind] in F; inversion F; reflexivity.
    + discriminate F.
  - rewrite (AL i _ (fun g => mkSettings (g_class g) (g_server g) (uint port) (g_batch g) (g_timeout g) (g_credential g) (g_selfsigned g)) H).
    { destruct x; reflexivity. }
    intros c c' G F. inversion F. reflexivity.
  - rewrite (AL i _ (fun g => mkSettings (g_class g) (g_server g) (g_port g) b (g_timeout g) (g_credential g) (g_selfsigned g)) H).
    { destruct x; reflexivity. }
    intros c' c'' G F. inversion F. reflexivity.
  - rewrite (AL i _ (fun g => mkSettings (g_class g) (g_server g) (g_port g) (g_batch g) (uint seconds) (g_credential g) (g_selfsigned g)) H).
    { destruct x; reflexivity. }
    intros c c' G F. inversion F. reflexivity.
  - rewrite (AL i _ (fun g => mkSettings (g_class g) (g_server g) (g_port g) (g_batch g) (g_timeout g) (Some c) (g_selfsigned g)) H).
    { destruct x; reflexivity. }
    intros c' c'' G F. inversion F. reflexivity.
  - rewrite (AL i _ (fun g => g) H).
    { destruct x; try reflexivity. cbn [intended effect]. unfold change. destruct (entry (showing w) i) eqn:E; [|reflexivity].
      rewrite <- E. apply replace_same. }
    intros c c' G F. inversion F. reflexivity.
  - rewrite (AL i _ (fun g => mkSettings (g_class g) (g_server g) (g_port g) (g_batch g) (g_timeout g) (g_credential g) b) H).
    { destruct x; reflexivity. }
    intros c c' G F. destruct (c_kind c) eqn:K; inversion F; unfold shown; cbn; now rewrite K.
  - unfold run_on in H. cbn [intended]. destruct (get_client w i) as [c|] eqn:G.
    + destruct ((cleanup;; ret 0%Z) (mkSt c (w_env w) (w_trace w))) as [o s] eqn:E. inversion H; subst.
      unfold showing at 1. cbn [w_clients]. now rewrite replace_map.
    + inversion H; subst. symmetry. apply replace_out; [now apply showing_get|discriminate].
Qed.

Lemma run_showing : forall ops w, showing (snd (run ops w)) = fold_left intended (combine ops (fst (run ops w))) (showing w).
Proof.
  induction ops as [|o r IH]; intros w; [reflexivity|]. cbn [run]. destruct (step o w) as [x w'] eqn:E.
  assert (S := step_showing _ _ _ _ E). destruct (continues x) eqn:C.
  - specialize (IH w'). destruct (run r w') as [xs w''] eqn:R. cbn [fst snd combine fold_left] in *. now rewrite <- S.
  - cbn [fst snd combine]. destruct r; cbn [combine fold_left]; now rewrite <- S.
Qed.

Lemma settings_kept : forall ops e,
  map (option_map shown) (w_clients (snd (run ops (initial_world e)))) =
  fold_left intended (combine ops (fst (run ops (initial_world e)))) [].
Proof. intros. exact (run_showing ops (initial_world e)). Qed.
