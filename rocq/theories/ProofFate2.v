(** What mails say, and programs. *)

From Coq Require Import Ascii String List NArith ZArith Bool Lia.
From Verif Require Import Base Lib ModelUtil ModelBase64 ModelAddress ModelAttachment ModelMessage ModelReply ModelErrors ModelState ModelClient ModelWorld
  SpecFate SpecText SpecTexts SpecThrow ProofTexts ProofTexts2 ProofFate ProofThrow2 ProofSafety.
Import ListNotations.
Open Scope Z_scope.

Definition same_w (w1 w2 : world) : Prop :=
  Forall2 same_o (w_clients w1) (w_clients w2) /\ w_env w1 = w_env w2 /\ filter not_written (w_trace w1) = filter not_written (w_trace w2) /\ lossless (w_env w1).
Lemma get_same : forall w1 w2 i, same_w w1 w2 -> same_o (get_client w1 i) (get_client w2 i).
Proof.
  intros w1 w2 i (F & _). unfold get_client. revert i. induction F as [|x y l1 l2 H F IH]; intros i; [destruct i; exact Logic.I|].
  destruct i; cbn [nth_error]; [|apply IH]. destruct x, y; exact H.
Qed.
Lemma set_same : forall l1 l2, Forall2 same_o l1 l2 -> forall i x y, same_o x y -> Forall2 same_o (list_set l1 i x) (list_set l2 i y).
Proof. induction 1 as [|u v l1 l2 H F IH]; intros i x y S; [destruct i; constructor|]. destruct i; cbn [list_set]; constructor; auto. Qed.
Lemma put_same : forall w1 w2 i x y, same_w w1 w2 -> same_o x y -> same_w (put_client i x w1) (put_client i y w2).
Proof. intros w1 w2 i x y (F & E & T & Z0) S. split; [apply set_same; assumption|repeat (apply conj; try assumption)]. Qed.
Lemma push_same : forall w1 w2 x y, same_w w1 w2 -> same_c x y -> same_w (push_client x w1) (push_client y w2).
Proof. intros w1 w2 x y (F & E & T & Z0) S. split; [apply Forall2_app; [exact F|constructor; [exact S|constructor]]|repeat (apply conj; try assumption)]. Qed.
Definition same_result (o1 o2 : outcome client) : Prop :=
  match o1, o2 with
  | Done a, Done b => same_c a b
  | Throw, Throw | Blocked, Blocked | Killed, Killed | Diverge, Diverge => True
  | Undef u, Undef v => u = v
  | _, _ => False
  end.
Lemma refl_result : forall o, same_result o o. Proof. intros [c| | | | |]; cbn; auto. apply same_refl. Qed.
Definition alike (r1 r2 : outcome Z * world) : Prop := near (fst r1) (fst r2) /\ same_w (snd r1) (snd r2).
Lemma create_same : forall w1 w2 o1 o2, same_w w1 w2 -> same_result o1 o2 -> alike (create o1 w1) (create o2 w2).
Proof. intros w1 w2 o1 o2 W R. destruct o1, o2; try contradiction; cbn in *; (split; [left; cbn; congruence|]); try exact W. apply push_same; assumption. Qed.
Lemma alter_same : forall w1 w2 i h1 h2, same_w w1 w2 -> (forall a b, same_c a b -> same_result (h1 a) (h2 b)) -> alike (alter i h1 w1) (alter i h2 w2).
Proof.
  intros w1 w2 i h1 h2 W R. pose proof (get_same w1 w2 i W) as G. unfold alter. destruct (get_client w1 i) as [a|], (get_client w2 i) as [b|]; try contradiction; [|split; [left; reflexivity|exact W]].
  specialize (R a b G). destruct (h1 a), (h2 b); try contradiction; cbn in *; (split; [left; cbn; congruence|]); try exact W. apply put_same; assumption.
Qed.
(** A call that is part of a program, and may have failed while logging. *)
Definition plain_call (o : op) : Prop := (forall k p port, o <> ONew k p port) /\ (forall i p, o <> OSetServer i p).
Definition failed (o o' : op) (w1 w2 : world) : Prop :=
  plain_call o /\ plain_call o' /\ legal w1 o /\ legal w2 o' /\ (bad (fst (step o w1)) \/ bad (fst (step o' w2))).
Ltac same := match goal with H : same_c ?a ?b |- _ => destruct a; destruct H as (? & ? & -> & ?) end; unfold same_c; eexists; eexists; split; [fldv; reflexivity|first [assumption|split; auto; fail]].
Lemma member_same : forall {h : client -> option client} i (m m' : M Z) w1 w2, (forall a b, same_c a b -> same_o (h a) (h b)) -> same_w w1 w2 -> (forall s1 s2, like s1 s2 -> nears m m' s1 s2) ->
  alike (run_on i m h w1) (run_on i m' h w2) \/ is_client w1 i /\ is_client w2 i /\ (bad (fst (run_on i m h w1)) \/ bad (fst (run_on i m' h w2))).
Proof.
  intros h i m m' w1 w2 Hh W O. pose proof (get_same w1 w2 i W) as G. unfold run_on, is_client. destruct (get_client w1 i) as [a|], (get_client w2 i) as [b|]; try contradiction; [|left; split; [left; reflexivity|exact W]].
  destruct W as (F & Ew & Tw & Z0). assert (L : like (mkSt a (w_env w1) (w_trace w1)) (mkSt b (w_env w2) (w_trace w2))) by (split; [exact G|repeat (apply conj; try assumption)]).
  specialize (O _ _ L). unfold nears in O. destruct (m (mkSt a _ _)) as [o1 q1], (m' (mkSt b _ _)) as [o2 q2]. cbn [fst snd] in *.
  destruct O as [B1|[B2|[E (Lc & Le & Lt & Ln)]]]; [right; repeat (apply conj; eauto)|right; repeat (apply conj; eauto)|left].
  split; [exact E|]. split; [apply set_same; [exact F|apply Hh, Lc]|repeat (apply conj; try assumption)].
Qed.
Lemma step_same : forall o o' w1 w2, same_form o o' -> same_w w1 w2 -> alike (step o w1) (step o' w2) \/ failed o o' w1 w2.
Proof.
  intros o o' w1 w2 Sf W. destruct o; try (cbn [same_form] in Sf; subst o').
  - left. apply create_same; [exact W|apply refl_result].
  - left. cbn [step]. pose proof (get_same w1 w2 src W) as G. destruct (get_client w1 src) as [a|], (get_client w2 src) as [b|]; try contradiction; [|split; [left; reflexivity|exact W]].
    apply create_same; [exact W|]. cbn [same_o] in G. unfold client_copy. rewrite (same_server a b G). destruct (c_server a); [|reflexivity]. destruct a. destruct G as (l & z & -> & X). cbn [same_result].
    eexists. eexists. split; [fldv; reflexivity|]. fldin X. apply empty_copy, X.
  - left. cbn [step]. pose proof (get_same w1 w2 src W) as G. destruct (get_client w1 src) as [a|], (get_client w2 src) as [b|]; try contradiction; [|split; [left; reflexivity|exact W]].
    split; [left; reflexivity|]. cbn [snd]. cbn [same_o] in G. apply push_same; [apply put_same; [exact W|]; cbn [same_o]|]; same.
  - left. cbn [step]. pose proof (get_same w1 w2 dst W) as G. pose proof (get_same w1 w2 src W) as G'.
    destruct (get_client w1 dst) as [a|], (get_client w2 dst) as [b|]; try contradiction; [|split; [left; reflexivity|exact W]].
    destruct (get_client w1 src) as [a'|], (get_client w2 src) as [b'|]; try contradiction; [|split; [left; reflexivity|exact W]].
    destruct (Nat.eqb dst src); [split; [left; reflexivity|exact W]|]. cbn [same_o] in G, G'. rewrite (same_kind _ _ G), (same_kind _ _ G'). destruct (kind_eqb _ _); [|split; [left; reflexivity|exact W]].
    apply alter_same; [exact W|]. intros x y Gx. unfold client_assign. rewrite (same_server a' b' G'). destruct (c_server a'); [|reflexivity]. cbn [same_result]. rewrite (same_kind _ _ Gx).
    destruct a'. destruct G' as (l & z & -> & X). eexists. eexists. split; [fldv; reflexivity|]. fldin X. apply empty_copy, X.
  - left. cbn [step]. pose proof (get_same w1 w2 dst W) as G. pose proof (get_same w1 w2 src W) as G'.
    destruct (get_client w1 dst) as [a|], (get_client w2 dst) as [b|]; try contradiction; [|split; [left; reflexivity|exact W]].
    destruct (get_client w1 src) as [a'|], (get_client w2 src) as [b'|]; try contradiction; [|split; [left; reflexivity|exact W]].
    destruct (Nat.eqb dst src); [split; [left; reflexivity|exact W]|]. cbn [same_o] in G, G'. rewrite (same_kind _ _ G), (same_kind _ _ G'). destruct (kind_eqb _ _); [|split; [left; reflexivity|exact W]].
    assert (K : same_c (client_move_assign a a') (client_move_assign b b')).
    { unfold client_move_assign at 2. rewrite (same_kind _ _ G). clear G. destruct a'. destruct G' as (l & z & -> & X). eexists. eexists. split; [fldv; reflexivity|exact X]. }
    split; [left; reflexivity|]. cbn [snd]. apply put_same; [apply put_same; [exact W|exact K]|]. cbn [same_o]. clear G K. same.
  - destruct o' as [| | | | |j m'| | | | | | | |]; try discriminate Sf. destruct Sf as [<- Sm]. cbn [step]. destruct (member_same (h := Some) i (sendMail m) (sendMail m') w1 w2 (fun _ _ H => H) W (fun s1 s2 L => two_mail m m' s1 s2 Sm L)) as [A|(L1 & L2 & Q)]; [left; exact A|right].
    split; [split; discriminate|split; [split; discriminate|split; [exact L1|split; [exact L2|exact Q]]]].
  - left. apply alter_same; [exact W|]. intros a b G. unfold client_setServerName, obind. destruct (check_server_name server); cbn [same_result]; try reflexivity; try exact Logic.I. same.
  - left. apply alter_same; [exact W|]. intros a b G. cbn [same_result]. same.
  - left. apply alter_same; [exact W|]. intros a b' G. cbn [same_result]. same.
  - left. apply alter_same; [exact W|]. intros a b G. cbn [same_result]. same.
  - left. apply alter_same; [exact W|]. intros a b G. cbn [same_result]. same.
  - left. apply alter_same; [exact W|]. intros a b' G. cbn [same_result]. same.
  - left. apply alter_same; [exact W|]. intros a b' G. rewrite (same_kind _ _ G). destruct (c_kind a); cbn [same_result]; [exact Logic.I|same|same].
  - cbn [step]. destruct (member_same (h := fun _ => None) i (cleanup;; ret 0) (cleanup;; ret 0) w1 w2 (fun _ _ _ => Logic.I) W (fun s1 s2 L => near_same _ s1 s2 ob_destroy L)) as [A|(L1 & L2 & Q)]; [left; exact A|right].
    split; [split; discriminate|split; [split; discriminate|split; [exact L1|split; [exact L2|exact Q]]]].
Qed.


(** Programs. *)
Lemma near_continues : forall o1 o2, near o1 o2 -> continues o1 = continues o2.
Proof. intros o1 o2 [->|(a & b & -> & -> & _)]; reflexivity. Qed.
Lemma run_near T e : forall post1 post2, Forall2 same_form post1 post2 -> forall pre1 pre2,
  let w1 := snd (run pre1 (initial_world e)) in let w2 := snd (run pre2 (initial_world e)) in
  modest T (pre1 ++ post1) e -> modest T (pre2 ++ post2) e -> survived (fst (run pre1 (initial_world e))) -> survived (fst (run pre2 (initial_world e))) -> same_w w1 w2 ->
  Forall2 near (fst (run post1 w1)) (fst (run post2 w2)) /\ same_w (snd (run post1 w1)) (snd (run post2 w2)).
Proof.
  intros post1 post2 F. induction F as [|o o' post1 post2 Fo F IH]; intros pre1 pre2 w1 w2 M1 M2 S1 S2 W; [split; [constructor|exact W]|].
  assert (E0 : pre1 ++ o :: post1 = (pre1 ++ [o]) ++ post1) by (rewrite <- app_assoc; reflexivity). assert (E0' : pre2 ++ o' :: post2 = (pre2 ++ [o']) ++ post2) by (rewrite <- app_assoc; reflexivity). rewrite E0 in M1. rewrite E0' in M2.
  destruct (step_same o o' w1 w2 Fo W) as [[E W']|([N1 N2] & [N3 N4] & L1 & L2 & Q)].
  2: { exfalso. destruct Q as [Q|Q]; revert Q; apply (not_bad T); try assumption; eapply modest_part; eassumption. }
  specialize (IH (pre1 ++ [o]) (pre2 ++ [o'])). cbv zeta in IH. rewrite (run_snoc pre1 o _ S1), (run_snoc pre2 o' _ S2) in IH. cbn [fst snd] in IH. fold w1 in IH. fold w2 in IH.
  cbn [run]. destruct (step o w1) as [x1 v1], (step o' w2) as [x2 v2]. cbn [fst snd] in *. pose proof (near_continues _ _ E) as Ec.
  destruct (continues x1) eqn:C; symmetry in Ec; rewrite Ec; [|split; [constructor; [exact E|constructor]|exact W']].
  assert (P1 : survived [x1]) by (constructor; [destruct x1; try discriminate C; eauto|constructor]).
  assert (P2 : survived [x2]) by (constructor; [destruct x2; try discriminate Ec; eauto|constructor]).
  destruct (IH M1 M2 ltac:(apply Forall_app; split; [exact S1|exact P1]) ltac:(apply Forall_app; split; [exact S2|exact P2]) W') as [E' W''].
  destruct (run post1 v1), (run post2 v2). cbn [fst snd] in *. split; [constructor; assumption|exact W''].
Qed.
Lemma contents_irrelevant : forall T ops1 ops2 e, lossless e -> Forall2 same_form ops1 ops2 -> modest T ops1 e -> modest T ops2 e ->
  let a := run ops1 (initial_world e) in let b := run ops2 (initial_world e) in
  Forall2 same_fate (fst a) (fst b) /\ filter not_written (w_trace (snd a)) = filter not_written (w_trace (snd b)) /\
  forall i, match get_client (snd a) i, get_client (snd b) i with Some c, Some d => same_besides_log c d | None, None => True | _, _ => False end.
Proof.
  intros T ops1 ops2 e N F M1 M2 a b. destruct (run_near T e ops1 ops2 F [] [] M1 M2) as [E W]; [constructor|constructor|split; [constructor|repeat (apply conj; try reflexivity); apply N]|].
  cbn [run snd] in E, W. split; [|split; [apply W|]].
  - subst a b. revert E. generalize (fst (run ops1 (initial_world e))) (fst (run ops2 (initial_world e))). induction 1 as [|x y l1 l2 X E IH]; constructor; [|exact IH].
    destruct X as [->|(u & v & -> & -> & [->| ->] & [->| ->])]; unfold same_fate, body_failure; auto.
  - intros i. pose proof (get_same _ _ i W) as G. subst a b.
    destruct (get_client _ i), (get_client _ i); try contradiction; [|exact Logic.I]. destruct G as (l & z & -> & _). exists l, z. reflexivity.
Qed.
