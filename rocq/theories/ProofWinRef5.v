(** References to WinSock: programs. *)

From Coq Require Import Ascii String List NArith ZArith Bool Lia.
From Verif Require Import Base ModelUtil ModelBase64 ModelAddress ModelAttachment
  ModelErrors ModelReply ModelMessage ModelState ModelClient ModelWorld ModelWin SpecWin ProofWorld ProofWin2 ProofWin3 ProofWinRef ProofWinRef2 ProofWinRef3 ProofWinRef4.
Import ListNotations.
Open Scope Z_scope.

(** ** The sum of the flags *)

Fixpoint total (l : list bool) : nat := match l with [] => O | b :: r => (b2n b + total r)%nat end.
Lemma total_set l : forall i b, (i < length l)%nat -> (total (list_set l i b) + b2n (nth i l false) = total l + b2n b)%nat.
Proof.
  induction l as [|a l IH]; intros [|i] b L; cbn in *; try lia. specialize (IH i b). lia.
Qed.
Lemma total_nth l : forall i, (b2n (nth i l false) <= total l)%nat.
Proof. induction l as [|a l IH]; intros [|i]; cbn; try lia. specialize (IH i). lia. Qed.
Lemma total_more l n : total (l ++ repeat false n) = total l.
Proof. induction l as [|a l IH]; cbn; [|now rewrite IH]. induction n; auto. Qed.
Lemma nth_more l n i : nth i (l ++ repeat false n) false = nth i l false.
Proof.
  destruct (Nat.lt_ge_cases i (length l)).
  - now apply app_nth1.
  - rewrite app_nth2 by lia. rewrite (nth_overflow l) by lia. destruct (nth_in_or_default (i - length l) (repeat false n) false) as [I|E]; [|exact E].
    now apply repeat_spec in I.
Qed.
Lemma total_zero l : (forall i, nth i l false = false) -> total l = O.
Proof. induction l as [|a l IH]; intros H; [reflexivity|]. cbn. rewrite IH; [|intros i; exact (H (S i))]. pose proof (H O). cbn in *. now subst. Qed.

(** ** Operations without calls *)

Definition gets (l : list (option client)) (i : nat) : option client := match nth_error l i with Some (Some c) => Some c | _ => None end.
Lemma gets_in l i c : gets l i = Some c -> (i < length l)%nat.
Proof. unfold gets. intros H. apply nth_error_Some. now destruct (nth_error l i). Qed.
Lemma gets_set l i v c j : gets l i = Some c -> gets (list_set l i v) j = if Nat.eqb i j then v else gets l j.
Proof.
  intros H. apply gets_in in H. unfold gets. rewrite nth_list_set. destruct (Nat.eqb i j); [|reflexivity].
  apply Nat.ltb_lt in H. rewrite H. now destruct v.
Qed.
Lemma gets_app l c j : gets (l ++ [Some c]) j = if Nat.eqb (length l) j then Some c else gets l j.
Proof.
  unfold gets. destruct (Nat.eqb (length l) j) eqn:E.
  - apply Nat.eqb_eq in E. subst j. now rewrite nth_error_app2, Nat.sub_diag by lia.
  - apply Nat.eqb_neq in E. destruct (Nat.lt_ge_cases j (length l)); [now rewrite nth_error_app1|].
    rewrite nth_error_app2 by lia. destruct (j - length l)%nat eqn:Q; [lia|]. cbn. rewrite (proj2 (nth_error_None l j)) by lia. now destruct n.
Qed.

(** What such an operation does to the clients. *)
Definition alike (c c' : client) : Prop :=
  c_kind c' = c_kind c /\ c_conn c' = c_conn c /\ c_bio c' = c_bio c /\ c_sock c' = c_sock c.
Lemma alike_refl c : alike c c. Proof. unfold alike. auto. Qed.
Definition changes (o : op) (x : outcome Z) (l l' : list (option client)) : Prop :=
  (length l <= length l')%nat /\
  (forall i, gets l' i = None -> gets l i = None) /\
  (forall i c', gets l' i = Some c' -> (length l <= i)%nat \/ In i (spends o x []) \/ exists c, gets l i = Some c /\ c_conn c' = c_conn c) /\
  (moves o = false -> forall i c', gets l' i = Some c' -> (c_conn c' = false /\ c_bio c' = None) \/ exists c, gets l i = Some c /\ alike c c').
Lemma changes_none o x l : changes o x l l.
Proof.
  split; [lia|]. split; [auto|]. split; [intros i c H; right; right; exists c; auto|]. intros _ i c H. right. exists c. auto using alike_refl.
Qed.
Lemma changes_push o x l c : c_conn c = false -> c_bio c = None -> changes o x l (l ++ [Some c]).
Proof.
  intros N B. split; [rewrite app_length; lia|]. split; [intros i; rewrite gets_app; now destruct (Nat.eqb _ _)|].
  split.
  - intros i c'. rewrite gets_app. destruct (Nat.eqb (length l) i) eqn:E; [apply Nat.eqb_eq in E; left; lia|]. intros H. right. right. exists c'. auto.
  - intros _ i c'. rewrite gets_app. destruct (Nat.eqb (length l) i) eqn:E; [intros Q; injection Q as <-; auto|]. intros H. right. exists c'. auto using alike_refl.
Qed.
Lemma changes_set o x l i c c' : gets l i = Some c -> (In i (spends o x []) \/ c_conn c' = c_conn c) ->
  (moves o = false -> (c_conn c' = false /\ c_bio c' = None) \/ alike c c') -> changes o x l (list_set l i (Some c')).
Proof.
  intros G S A. split; [rewrite length_list_set; lia|]. split; [|split].
  - intros j. rewrite (gets_set _ _ _ _ j G). now destruct (Nat.eqb i j).
  - intros j d. rewrite (gets_set _ _ _ _ j G). destruct (Nat.eqb i j) eqn:E; [|intros H; right; right; exists d; auto].
    apply Nat.eqb_eq in E. subst j. intros Q. injection Q as <-. right. destruct S; [auto|]. right. exists c. auto.
  - intros M j d. rewrite (gets_set _ _ _ _ j G). destruct (Nat.eqb i j) eqn:E; [|intros H; right; exists d; auto using alike_refl].
    apply Nat.eqb_eq in E. subst j. intros Q. injection Q as <-. destruct (A M); [auto|]. right. exists c. auto.
Qed.
Lemma changes_alter o i f w : (forall c c', f c = Done c' -> In i (spends o (Done 0) []) \/ c_conn c' = c_conn c) ->
  (moves o = false -> forall c c', f c = Done c' -> (c_conn c' = false /\ c_bio c' = None) \/ alike c c') ->
  changes o (fst (alter i f w)) (w_clients w) (w_clients (snd (alter i f w))).
Proof.
  intros S A. unfold alter. destruct (get_client w i) as [c|] eqn:G; [|apply changes_none]. destruct (f c) eqn:F; try apply changes_none.
  cbn. apply changes_set with (c := c); [exact G|eauto|eauto].
Qed.
Lemma changes_create o oc w : (forall c, oc = Done c -> c_conn c = false /\ c_bio c = None) ->
  changes o (fst (create oc w)) (w_clients w) (w_clients (snd (create oc w))).
Proof. intros H. unfold create. destruct oc; try apply changes_none. destruct (H _ eq_refl). now apply changes_push. Qed.

Lemma step_changes o w : talks o = false -> changes o (fst (step o w)) (w_clients w) (w_clients (snd (step o w))).
Proof.
  intros T. destruct o; try discriminate T; cbn [step].
  - apply changes_create. unfold client_new. intros c. destruct (check_server_name server); cbn; try discriminate. intros E. now injection E as <-.
  - destruct (get_client w src) as [c|]; [|apply changes_none]. apply changes_create. unfold client_copy. intros d. destruct (c_server c); try discriminate. intros E. now injection E as <-.
  - destruct (get_client w src) as [c|] eqn:G; [|apply changes_none]. cbn [fst snd push_client put_client w_clients].
    split; [rewrite app_length, length_list_set; lia|]. split; [|split; [|discriminate]].
    + intros i. rewrite gets_app. destruct (Nat.eqb _ _); [discriminate|]. rewrite (gets_set _ _ _ _ i G). now destruct (Nat.eqb src i).
    + intros i d. rewrite gets_app, length_list_set. destruct (Nat.eqb _ i) eqn:E; [apply Nat.eqb_eq in E; left; lia|].
      rewrite (gets_set _ _ _ _ i G). destruct (Nat.eqb src i) eqn:E2; [apply Nat.eqb_eq in E2; subst; cbn; auto|].
      intros H. right. right. exists d. auto.
  - destruct (get_client w dst) as [d|] eqn:G; [|apply changes_none]. destruct (get_client w src) as [c|] eqn:G2; [|apply changes_none].
    destruct (Nat.eqb dst src); [apply changes_none|]. destruct (kind_eqb _ _); [|apply changes_none].
    apply changes_alter; [cbn; auto|]. intros _ d' c'. unfold client_assign. destruct (c_server c); try discriminate. intros E. injection E as <-. cbn. auto.
  - destruct (get_client w dst) as [d|] eqn:G; [|apply changes_none]. destruct (get_client w src) as [c|] eqn:G2; [|apply changes_none].
    destruct (Nat.eqb dst src) eqn:NE; [apply changes_none|]. destruct (kind_eqb _ _); [|apply changes_none]. apply Nat.eqb_neq in NE.
    cbn [fst snd put_client w_clients]. set (l1 := list_set (w_clients w) dst _).
    assert (G3 : gets l1 src = Some c). { unfold l1. rewrite (gets_set _ _ _ _ src G). apply Nat.eqb_neq in NE. now rewrite NE. }
    split; [unfold l1; rewrite !length_list_set; lia|]. split; [|split; [|discriminate]].
    + intros i. rewrite (gets_set _ _ _ _ i G3). destruct (Nat.eqb src i); [discriminate|]. unfold l1. rewrite (gets_set _ _ _ _ i G). now destruct (Nat.eqb dst i).
    + intros i e. rewrite (gets_set _ _ _ _ i G3). destruct (Nat.eqb src i) eqn:E; [apply Nat.eqb_eq in E; subst; cbn; auto|].
      unfold l1. rewrite (gets_set _ _ _ _ i G). destruct (Nat.eqb dst i) eqn:E2; [apply Nat.eqb_eq in E2; subst; cbn; auto|].
      intros H. right. right. exists e. auto.
  - apply changes_alter; [intros c c'|intros _ c c']; unfold client_setServerName; destruct (check_server_name server); cbn; try discriminate;
      intros E; injection E as <-; cbn; auto. right. unfold alike. cbn. auto.
  - apply changes_alter; [intros c c'|intros _ c c']; intros E; injection E as <-; cbn; auto. right. unfold alike. cbn. auto.
  - apply changes_alter; [intros c c'|intros _ c c']; intros E; injection E as <-; cbn; auto. right. unfold alike. cbn. auto.
  - apply changes_alter; [intros c c'|intros _ c c']; intros E; injection E as <-; cbn; auto. right. unfold alike. cbn. auto.
  - apply changes_alter; [intros c' d|intros _ c' d]; intros E; injection E as <-; cbn; auto. right. unfold alike. cbn. auto.
  - apply changes_alter; [intros c c'|intros _ c c']; intros E; injection E as <-; cbn; auto. right. unfold alike. cbn. auto.
  - apply changes_alter; [intros c c'|intros _ c c']; destruct (c_kind c); try discriminate; intros E; injection E as <-; cbn; auto;
      right; unfold alike; cbn; auto.
Qed.

(** ** The invariant of a world *)

Definition view (w : wworld) (i : nat) (c : client) : vst :=
  mkV c (nth i (ww_on w) false) (w_env (ww w)) (ww_env w) (ww_trace w).
Definition sound (strict : bool) (w : wworld) (n : nat) : Prop :=
  length (ww_on w) = length (w_clients (ww w)) /\ (total (ww_on w) <= n)%nat /\
  (strict = true -> forall i c, gets (w_clients (ww w)) i = Some c -> inv (view w i c)).
Definition even (spent : list nat) (w : wworld) (n : nat) : Prop :=
  n = total (ww_on w) /\ (forall i, gets (w_clients (ww w)) i = None -> nth i (ww_on w) false = false) /\
  (forall i c, ~ In i spent -> gets (w_clients (ww w)) i = Some c -> linked (view w i c)).

Lemma nth_set l : forall i (b : bool) j, (i < length l)%nat -> nth j (list_set l i b) false = if Nat.eqb i j then b else nth j l false.
Proof. induction l as [|a l IH]; intros [|i] b [|j] L; cbn in *; try lia; auto. apply IH. lia. Qed.

(** A member function run on a client. *)
Lemma run_on_facts strict {A} (m : W A) g i w n (need : vst -> Prop) (L : outcome A -> vst -> list wevent -> Prop) : sound strict w n ->
  (forall v, (strict = true -> inv v) -> let '(o, v') := m v in (strict = true -> forall c, g (v_c v') = Some c -> inv (mkV c (v_on v') (v_e v') (v_w v') (v_t v'))) /\
     exists tw, v_t v' = v_t v ++ tw /\ L o v' tw /\ count (need v) strict (v_on v) (v_on v') tw) ->
  let '(o, w') := run_onW i m g w in exists tw n', ww_trace w' = ww_trace w ++ tw /\ cnt strict n tw = Some n' /\ sound strict w' n' /\
    (forall spent spent', Forall freed tw -> even spent w n -> (forall c, gets (w_clients (ww w)) i = Some c -> need (view w i c)) ->
       (forall v', L o v' tw -> match g (v_c v') with None => v_on v' = false | Some c => ~ In i spent' -> linked (mkV c (v_on v') (v_e v') (v_w v') (v_t v')) end) ->
       (forall j, ~ In j spent' -> ~ In j spent) -> even spent' w' n').
Proof.
  intros (S1 & S2 & S3) H. unfold run_onW. destruct (get_client (ww w) i) as [c|] eqn:G.
  - fold (view w i c). specialize (H (view w i c) (fun S => S3 S i c G)). destruct (m (view w i c)) as [o v'].
    destruct H as (J & tw & E & LL & C). cbn [v_t v_on view] in E, C. assert (I : (i < length (ww_on w))%nat) by (rewrite S1; exact (gets_in _ _ _ G)).
    pose proof (total_set (ww_on w) i (v_on v') I) as TS. pose proof (total_nth (ww_on w) i) as TN.
    destruct (C n (n - b2n (nth i (ww_on w) false))%nat) as (n' & X & Y & Z); [lia|].
    exists tw, n'. split; [exact E|]. split; [exact X|]. split.
    + split; [cbn; now rewrite !length_list_set|]. split; [cbn [ww_on]; lia|]. intros S j d. cbn [ww w_clients]. rewrite (gets_set _ _ _ _ j G).
      unfold view. cbn [ww_on ww w_env ww_env ww_trace]. rewrite (nth_set _ _ _ j I). destruct (Nat.eqb i j) eqn:Q; [intros D; now apply J|].
      intros D. exact (S3 S j d D).
    + intros spent spent' F (E1 & E2 & E3) NI HL SUB. assert (LK : need (view w i c)) by (apply NI; exact G). specialize (HL v' LL). split; [|split].
      * cbn [ww_on]. specialize (Z LK F). lia.
      * intros j. cbn [ww w_clients ww_on]. rewrite (gets_set _ _ _ _ j G), (nth_set _ _ _ j I). destruct (Nat.eqb i j) eqn:Q; [|apply E2].
        intros D. rewrite D in HL. exact HL.
      * intros j d NJ. cbn [ww w_clients]. rewrite (gets_set _ _ _ _ j G). unfold view. cbn [ww_on ww w_env ww_env ww_trace]. rewrite (nth_set _ _ _ j I).
        destruct (Nat.eqb i j) eqn:Q; [|intros D; exact (E3 j d (SUB j NJ) D)]. apply Nat.eqb_eq in Q. subst j. intros D. rewrite D in HL. exact (HL NJ).
  - exists [], n. split; [now rewrite app_nil_r|]. split; [reflexivity|]. split; [unfold sound; auto|].
    intros spent spent' _ (E1 & E2 & E3) _ _ SUB. split; [exact E1|]. split; [exact E2|]. intros j d NJ. apply E3; auto.
Qed.

Lemma skip_app {A} (a b : list A) : skipn (length a) (a ++ b) = b.
Proof. now rewrite skipn_app, skipn_all, Nat.sub_diag. Qed.
Lemma wstep_facts strict o w n : (strict = true -> moves o = false) -> sound strict w n ->
  let '(x, w') := wstep o w in exists tw n', ww_trace w' = ww_trace w ++ tw /\ cnt strict n tw = Some n' /\ sound strict w' n' /\
    (forall spent, Forall freed tw -> even spent w n -> (forall i m, o = OSend i m -> ~ In i spent) -> (forall i, o = ODestroy i -> x = Done 0) ->
       even (spends o x tw ++ spent) w' n').
Proof.
  intros MV S. destruct (talks o) eqn:T.
  - destruct o; try discriminate T; cbn [wstep].
    + pose proof (run_on_facts strict (sendMailW m) Some i w n linked (fun o v' tw => is_done o = true -> o = Done 0 \/ existsb starts tw = false -> linked v') S) as H.
      destruct (run_onW i (sendMailW m) Some w) as [x w']. destruct H as (tw & n' & E & X & S' & H).
      { intros v J. pose proof (send_facts strict m v J) as F. destruct (sendMailW m v) as [q v']. destruct F as (F1 & F2). split; [|exact F2].
        intros Q c D. injection D as <-. destruct v'; apply F1, Q. }
      exists tw, n'. split; [exact E|]. split; [exact X|]. split; [exact S'|]. intros spent F EV NI _. eapply H; [exact F|exact EV| | |].
      * intros c G. apply EV; [now apply (NI i m)|exact G].
      * intros v' L. cbn [spends]. intros NJ. assert (D : is_done x = true /\ (x = Done 0 \/ existsb starts tw = false)).
        { destruct x as [r| | | | |]; try (exfalso; apply NJ; now left). split; [reflexivity|]. destruct (r =? 0) eqn:R0; [apply Z.eqb_eq in R0; subst; auto|].
          destruct (existsb starts tw); [|auto]. exfalso. apply NJ. now left. }
        destruct D as [D1 D2]. specialize (L D1 D2). destruct v'; exact L.
      * intros j NJ HJ. apply NJ. apply in_or_app. auto.
    + pose proof (run_on_facts strict (cleanupW ;;# wret 0) (fun _ => None) i w n (fun _ => True) (fun o v' _ => is_done o = true -> v_on v' = false) S) as H.
      destruct (run_onW i (cleanupW ;;# wret 0) (fun _ => None) w) as [x w'] eqn:RN. destruct H as (tw & n' & E & X & S' & H).
      { intros v J. pose proof (destroy_facts strict v J) as F. unfold wbind, wret. destruct (cleanupW v) as [q v']. destruct F as (F1 & tw & F2 & F3).
        destruct q; (split; [discriminate|]); exists tw; (split; [exact F2|]); (split; [cbn in *; auto|]); now apply counted_count. }
      exists tw, n'. split; [exact E|]. split; [exact X|]. split; [exact S'|]. intros spent F EV _ DN. cbn [spends app]. specialize (DN i eq_refl).
      eapply H; [exact F|exact EV|auto| |auto]. intros v' L. apply L. now rewrite DN.
  - pose proof (step_changes o (ww w) T) as CH.
    assert (SP : forall x t, spends o x t = spends o x []) by (destruct o; try discriminate T; reflexivity).
    assert (E : wstep o w = let '(x, w') := step o (ww w) in
      (x, mkWW w' (ww_on w ++ repeat false (length (w_clients w') - length (w_clients (ww w)))) (ww_env w) (ww_trace w))) by (destruct o; try discriminate T; reflexivity).
    rewrite E. clear E. destruct (step o (ww w)) as [x w'] eqn:ST. cbn [fst snd] in CH. destruct CH as (C1 & C2 & C3 & C4).
    destruct S as (S1 & S2 & S3). exists [], n. split; [now rewrite app_nil_r|]. split; [reflexivity|]. split.
    + split; [cbn; rewrite app_length, repeat_length; lia|]. split; [cbn [ww_on]; now rewrite total_more|].
      intros Q i c'. cbn [ww]. intros G. unfold view. cbn [ww_on ww]. rewrite nth_more. destruct (C4 (MV Q) i c' G) as [[D1 D2]|(c & G2 & D1 & D2 & D3 & D4)].
      * split; cbn; [auto|congruence].
      * destruct (S3 Q i c G2) as [J1 J2]. unfold inv, mine in *. cbn in *. rewrite D1, D2, D3, D4. auto.
    + intros spent _ (E1 & E2 & E3) _ _. split; [cbn [ww_on]; now rewrite total_more|]. split.
      * intros i. cbn [ww ww_on]. rewrite nth_more. intros G. apply E2, C2, G.
      * intros i c' NI. cbn [ww]. intros G. unfold linked, view. cbn [v_on v_c ww_on]. rewrite nth_more.
        destruct (C3 i c' G) as [D|[D|(c & G2 & D)]].
        -- rewrite nth_overflow by lia. discriminate.
        -- exfalso. apply NI, in_or_app. auto.
        -- rewrite D. apply (E3 i c); [|exact G2]. intros I. apply NI, in_or_app. auto.
Qed.

Lemma wrun_facts strict ops : forall w n, (strict = true -> Forall (fun o => moves o = false) ops) -> sound strict w n ->
  let '(outs, w') := wrun ops w in exists tw n', ww_trace w' = ww_trace w ++ tw /\ cnt strict n tw = Some n' /\ sound strict w' n' /\
    (forall spent, Forall freed tw -> even spent w n -> tidy spent ops w -> exists spent', even spent' w' n').
Proof.
  induction ops as [|o ops IH]; intros w n MV S; cbn [wrun].
  - exists [], n. split; [now rewrite app_nil_r|]. split; [reflexivity|]. split; [exact S|]. intros spent _ E _. exists spent. exact E.
  - assert (MO : strict = true -> moves o = false). { intros Q. specialize (MV Q). now inversion MV. }
    pose proof (wstep_facts strict o w n MO S) as H. cbn [tidy]. destruct (wstep o w) as [x w1]. destruct H as (tw & n1 & E & X & S1 & EV).
    destruct (continues x) eqn:C.
    + assert (MV2 : strict = true -> Forall (fun o => moves o = false) ops). { intros Q. specialize (MV Q). now inversion MV. }
      pose proof (IH w1 n1 MV2 S1) as H. destruct (wrun ops w1) as [xs w2]. destruct H as (tw2 & n2 & E2 & X2 & S2 & EV2).
      exists (tw ++ tw2), n2. split; [now rewrite E2, E, app_assoc|]. split; [now rewrite (cnt_app _ _ _ _ _ X)|]. split; [exact S2|].
      intros spent F E0 (T1 & T2 & T3). apply Forall_app in F as [F1 F2]. rewrite E, skip_app in T3. eapply EV2; [exact F2| |apply T3; reflexivity]. apply EV; auto.
    + exists tw, n1. split; [exact E|]. split; [exact X|]. split; [exact S1|]. intros spent F E0 (T1 & T2 & _). eexists. apply EV; eauto.
Qed.

(** ** Reading the count *)

Lemma cnt_prefix strict p : forall n t, cnt strict n (p ++ t) <> None -> exists n', cnt strict n p = Some n' /\ (n' + cleanups p = n + startups p)%nat.
Proof.
  unfold cleanups, startups. induction p as [|ev p IH]; intros n t H; [exists n; split; [reflexivity|cbn; lia]|]. cbn [app cnt] in H.
  destruct ev; cbn [cnt filter]; try (apply (IH n t); exact H).
  - destruct (_ && _); [contradiction|]. exact (IH n t H).
  - destruct (r =? 0); [|exact (IH n t H)]. destruct (IH _ t H) as (n' & E & X). exists n'. split; [exact E|]. cbn. lia.
  - destruct n; [contradiction|]. destruct (r =? 0); [|exact (IH _ t H)]. destruct (IH _ t H) as (n' & E & X). exists n'. split; [exact E|]. cbn. lia.
Qed.
Lemma initial_sound strict e x : sound strict (initial_wworld e x) 0.
Proof. split; [reflexivity|]. split; [cbn; lia|]. intros _ i c. destruct i; discriminate. Qed.
Lemma initial_even e x : even [] (initial_wworld e x) 0.
Proof. split; [reflexivity|]. split; [intros []; reflexivity|]. intros i c _. destruct i; discriminate. Qed.

Lemma release_needs_reference ops e x p r s : ww_trace (snd (wrun ops (initial_wworld e x))) = p ++ WCleanup r :: s ->
  (cleanups p < startups p)%nat.
Proof.
  intros T. pose proof (wrun_facts false ops (initial_wworld e x) 0 ltac:(discriminate) (initial_sound _ _ _)) as H.
  destruct (wrun ops (initial_wworld e x)) as [outs w]. destruct H as (tw & n & E & C & _). cbn in E, T. subst tw. rewrite T in C.
  destruct (cnt_prefix false p 0 (WCleanup r :: s)) as (n1 & C1 & X); [congruence|]. rewrite (cnt_app _ _ _ _ _ C1) in C. cbn in C.
  destruct n1; [discriminate|lia].
Qed.
Lemma data_need_reference ops e x p ev s : Forall (fun o => moves o = false) ops ->
  ww_trace (snd (wrun ops (initial_wworld e x))) = p ++ WSock ev :: s -> transfers ev = true -> (cleanups p < startups p)%nat.
Proof.
  intros MV T TR. pose proof (wrun_facts true ops (initial_wworld e x) 0 (fun _ => MV) (initial_sound _ _ _)) as H.
  destruct (wrun ops (initial_wworld e x)) as [outs w]. destruct H as (tw & n & E & C & _). cbn in E, T. subst tw. rewrite T in C.
  destruct (cnt_prefix true p 0 (WSock ev :: s)) as (n1 & C1 & X); [congruence|]. rewrite (cnt_app _ _ _ _ _ C1) in C. cbn in C.
  rewrite TR in C. destruct n1; [discriminate|lia].
Qed.
Lemma all_released ops e x outs w : wrun ops (initial_wworld e x) = (outs, w) -> tidy [] ops (initial_wworld e x) ->
  Forall (fun c => c = None) (w_clients (ww w)) -> (forall r, In (WCleanup r) (ww_trace w) -> r = 0) ->
  cleanups (ww_trace w) = startups (ww_trace w).
Proof.
  intros RN T D F. pose proof (wrun_facts false ops (initial_wworld e x) 0 ltac:(discriminate) (initial_sound _ _ _)) as H.
  rewrite RN in H. destruct H as (tw & n & E & C & _ & EV). cbn in E. subst tw.
  destruct (EV [] ltac:(apply Forall_forall; intros [] I; cbn; auto) (initial_even _ _) T) as (spent & E1 & E2 & _).
  destruct (cnt_prefix false (ww_trace w) 0 []) as (n1 & C1 & X); [rewrite app_nil_r; congruence|]. assert (n1 = n) by congruence. subst n1.
  assert (n = 0)%nat; [|lia]. rewrite E1. apply total_zero. intros i. apply E2. unfold gets. destruct (nth_error _ i) as [o|] eqn:Q; [|reflexivity].
  apply nth_error_In in Q. rewrite Forall_forall in D. now rewrite (D o Q).
Qed.
