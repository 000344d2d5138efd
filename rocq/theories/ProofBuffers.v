(** Error messages, encoded files and ErrorResolver objects behave as values. *)

From Coq Require Import Ascii String List NArith ZArith Bool Arith Lia Permutation.
From Verif Require Import Base Lib ModelUtil ModelBase64 ModelErrors ModelAttachment ModelMessage ModelHeap ModelCpp ModelBuffers SpecBuffers
  ProofHeap ProofErrors.
Import ListNotations.
Open Scope nat_scope.

(** ** Addresses are never handed out again *)

Definition fresh {A} (m : H A) : Prop := forall h,
  h_next h <= h_next (snd (m h)) /\
  forall a, a < h_next h -> lookup a (h_live h) = None -> lookup a (h_live (snd (m h))) = None.

Lemma fresh_ret : forall A (a : A), fresh (hret a).
Proof. intros A a h. cbn. auto. Qed.
Lemma fresh_lift : forall A (o : outcome A), fresh (hlift o).
Proof. intros A o h. cbn. auto. Qed.
Lemma fresh_bind : forall A C (m : H A) (k : A -> H C), fresh m -> (forall a, fresh (k a)) -> fresh (hbind m k).
Proof.
  intros A C m k M K h. unfold hbind. destruct (M h) as [L N]. destruct (m h) as [[a| |u| | |] h'] eqn:E; cbn [snd] in *; auto.
  destruct (K a h') as [L' N']. split; [lia|]. intros x Hx Hn. apply N'; [lia|auto].
Qed.
Lemma fresh_new : forall k c, fresh (h_new k c).
Proof. intros k c h. cbn. split; [lia|]. intros a La Na. destruct (Nat.eqb_spec a (h_next h)); [lia|exact Na]. Qed.
Lemma fresh_get : forall q p, fresh (h_get q p).
Proof. intros q [a|] h; cbn; [destruct (lookup a (h_live h))|]; cbn; auto. Qed.
Lemma lookup_remove : forall a x l, lookup a l = None -> lookup a (remove x l) = None.
Proof.
  induction l as [|[y b] r IH]; cbn; [auto|]. intros H. destruct (Nat.eqb_spec a y); [discriminate H|].
  destruct (Nat.eqb_spec x y); cbn; [exact H|]. destruct (Nat.eqb_spec a y); [easy|auto].
Qed.
Lemma fresh_del : forall k p, fresh (h_del k p).
Proof.
  intros k [a|] h; cbn; [|auto]. destruct (lookup a (h_live h)) as [b|]; [|cbn; auto].
  destruct (b_alloc b), k; cbn; auto using lookup_remove.
Qed.
Lemma fresh_put : forall q p c, fresh (h_put q p c).
Proof.
  intros q [a|] c h; cbn; [|auto]. destruct (lookup a (h_live h)) as [b|] eqn:E; cbn; [|auto].
  split; [lia|]. intros x Lx Nx. destruct (Nat.eqb_spec x a) as [->|]; [congruence|]. now apply lookup_remove.
Qed.
Lemma fresh_text : forall q p, fresh (h_text q p).
Proof. intros q p. apply fresh_bind; [apply fresh_get|]. intros []; try apply fresh_ret; intros h; cbn; auto. Qed.
Lemma fresh_peek : forall p, fresh (peek p).
Proof. intros [a|]; [apply fresh_bind; [apply fresh_text|intros; apply fresh_ret]|apply fresh_ret]. Qed.
Lemma fresh_match_ptr : forall A (p : ptr) (m : nat -> H A) n, (forall a, fresh (m a)) -> fresh n ->
  fresh (match p with Some a => m a | None => n end).
Proof. intros A [a|]; auto. Qed.

Ltac fr := repeat first
  [ apply fresh_ret | apply fresh_lift | apply fresh_new | apply fresh_del | apply fresh_put | apply fresh_text | apply fresh_peek
  | apply fresh_bind; [|intros] ].

Lemma fresh_error : forall c, fresh (new_error_message c).
Proof. intro c. unfold new_error_message, resolver_new, resolver_destroy, h_dup. fr. Qed.
Lemma fresh_fill : forall c b mx, fresh (fill_error_message c b mx).
Proof. intros c b mx. unfold fill_error_message, resolver_new, resolver_destroy, h_dup. fr. Qed.
Lemma fresh_base64 : forall fs a, fresh (new_base64_file fs a).
Proof. intros fs a. unfold new_base64_file. destruct (getBase64EncodedFile fs a); unfold h_dup; fr. Qed.
Lemma fresh_atts : forall fs l acc, fresh (attachments_heap fs l acc).
Proof.
  intros fs l. induction l as [|a l IH]; intro acc; cbn [attachments_heap]; [fr|].
  apply fresh_bind; [|intros; apply IH]. unfold attachment_file. apply fresh_bind; [apply fresh_base64|].
  intros [x|]; fr.
Qed.

Lemma fresh_bexec : forall o st, fresh (bexec o st).
Proof.
  intros o st. destruct o; cbn [bexec]; unfold resolver_new, resolver_copy, resolver_assign, resolver_move, resolver_move_assign, resolver_destroy, h_dup.
  - fr.
  - destruct (obj i st); fr.
  - destruct (obj i st); fr.
  - destruct (obj i st), (obj j st); try destruct (Nat.eqb i j); fr.
  - destruct (obj i st), (obj j st); try destruct (Nat.eqb i j); fr.
  - destruct (obj i st); fr.
  - destruct (obj i st); fr.
  - destruct (obj i st); fr.
  - fr.
  - fr.
  - fr. all: try apply fresh_base64.
  - destruct (nth_error (bs_ptrs st) k); fr.
  - destruct (nth_error (bs_ptrs st) k); fr.
  - fr. all: try apply fresh_atts.
  - unfold cpp_error_message. fr.
  - unfold cpp_fill_error_message. fr.
  - unfold cpp_base64_file. fr; [apply fresh_base64|]. destruct a0; fr.
Qed.

(** ** The functions *)

Definition NoU (u : ub) : Prop := False.

Lemma tri_resolver_new : forall E c,
  tri NoU E [] (resolver_new c) (fun r G => r_code r = c /\ ctext (r_msg r) (Some (getErrorMessage c)) /\ G = ftext (r_msg r) (Some (getErrorMessage c))).
Proof.
  intros E c. unfold resolver_new. tstep tri_dup. intros p G (C & ->). eapply tri_ret; [perm|]. cbn. auto.
Qed.

Lemma tri_resolver_copy : forall E c p s, ctext p (Some s) ->
  tri NoU E (ftext p (Some s)) (resolver_copy (mkR c p))
    (fun r G => r_code r = c /\ ctext (r_msg r) (Some s) /\ G = ftext p (Some s) ++ ftext (r_msg r) (Some s)).
Proof.
  intros E c p s C. unfold resolver_copy. cbn [r_msg r_code].
  eapply tri_seq; [eapply tri_text; [exact C|left; discriminate]|perm|]. intros s' G (Es & ->). injection Es as <-.
  eapply tri_seq; [apply tri_dup|perm|]. intros p' G (C' & ->). eapply tri_ret; [|cbn; eauto]. perm.
Qed.

Lemma tri_error : forall E c, tri NoU E [] (new_error_message c)
  (fun p G => ctext p (Some (getErrorMessage c)) /\ G = ftext p (Some (getErrorMessage c))).
Proof.
  intros E c. unfold new_error_message. eapply tri_seq; [apply tri_resolver_new|perm|]. intros r G (_ & C & ->).
  eapply tri_seq; [eapply tri_text; [exact C|left; discriminate]|perm|]. intros s G (Es & ->). injection Es as <-.
  eapply tri_seq; [apply tri_dup|perm|]. intros p G (Cp & ->).
  eapply tri_seq; [apply tri_del_text; exact C|perm|]. intros _ G ->. eapply tri_ret; [perm|auto].
Qed.

Lemma tri_fill : forall E c b mx v, getErrorMessage_r c b mx = Done v ->
  tri NoU E [] (fill_error_message c b mx) (fun w G => w = v /\ G = []).
Proof.
  intros E c b mx v H. unfold fill_error_message. eapply tri_seq; [apply tri_resolver_new|perm|]. intros r G (_ & C & ->).
  rewrite H. apply tri_lift; try discriminate. intros a Ha. injection Ha as <-.
  eapply tri_seq; [apply tri_del_text; exact C|perm|]. intros _ G ->. eapply tri_ret; [perm|auto].
Qed.


Lemma tri_base64 : forall E fs a, tri NoU E [] (new_base64_file fs a)
  (fun p G => ctext p (encoded fs a) /\ G = ftext p (encoded fs a)).
Proof.
  intros E fs a. unfold new_base64_file, encoded. destruct (getBase64EncodedFile fs a) as [s|].
  - apply tri_dup.
  - eapply tri_ret; [perm|]. cbn. auto.
Qed.

Lemma tri_att_file : forall E fs a, tri NoU E [] (attachment_file fs a)
  (fun s G => s = match encoded fs a with Some x => x | None => [] end /\ G = []).
Proof.
  intros E fs a. unfold attachment_file. eapply tri_seq; [apply tri_base64|perm|]. intros p G (C & ->).
  destruct (encoded fs a) as [s|], p as [x|]; try (now destruct C).
  - eapply tri_seq; [eapply tri_text; [exact C|left; discriminate]|perm|]. intros s' G (Es & ->). injection Es as <-.
    eapply tri_seq; [apply tri_del_text; exact C|perm|]. intros _ G ->. eapply tri_ret; [perm|auto].
  - eapply tri_ret; [perm|auto].
Qed.

Lemma attachment_parts : forall fs a, attachment_text fs a = attachment_head a ++ match encoded fs a with Some x => x | None => [] end.
Proof.
  intros fs a. unfold attachment_text, attachment_head, encoded.
  generalize (at_cid a) as cid. intro cid. destruct (getBase64EncodedFile fs a) as [x|]; repeat rewrite <- app_assoc; reflexivity.
Qed.

Lemma tri_atts : forall fs l E acc, tri NoU E [] (attachments_heap fs l acc)
  (fun s G => s = acc ++ createAttachmentsText fs l /\ G = []).
Proof.
  intros fs l. unfold createAttachmentsText. induction l as [|a l IH]; intros E acc; cbn [attachments_heap attachments_loop].
  - eapply tri_ret; [perm|]. auto.
  - eapply tri_seq; [apply tri_att_file|perm|]. intros s G (-> & ->).
    eapply tri_last; [apply IH|perm|]. intros s' G (-> & ->). exists []. split; [perm|]. split; [|reflexivity].
    rewrite attachment_parts, <- !app_assoc. reflexivity.
Qed.

Lemma tri_cpp_error : forall E c, tri NoU E [] (cpp_error_message c)
  (fun s G => s = getErrorMessage c /\ exists b, G = [b]).
Proof.
  intros E c. unfold cpp_error_message. eapply tri_seq; [apply tri_error|perm|]. intros p G (C & ->).
  eapply tri_last; [eapply tri_text; [exact C|left; discriminate]|perm|]. intros s G (Es & ->). injection Es as <-.
  destruct p as [a|]; [|destruct C]. eexists. split; [perm|]. split; [reflexivity|]. eexists. reflexivity.
Qed.

Lemma tri_cpp_fill : forall E c junk z s, cpp_getErrorMessage_r c junk = Done (z, s) ->
  tri NoU E [] (cpp_fill_error_message c junk) (fun v G => v = (z, s) /\ exists b, G = [b]).
Proof.
  intros E c junk z s H. unfold cpp_getErrorMessage_r in H.
  destruct (getErrorMessage_r c (Some junk) 1024) as [r| |u| | |] eqn:Er; try discriminate H. injection H as <- <-.
  unfold cpp_fill_error_message. eapply tri_seq; [apply tri_new|perm|]. intros p G (a & -> & ->).
  eapply tri_seq; [apply tri_fill; exact Er|perm|]. intros w G (-> & ->).
  eapply tri_seq; [apply (tri_put _ _ PArg a (mkB Many (Text (cstr junk))))|perm|]. intros _ G ->. cbn [b_alloc].
  set (x := match snd r with Some b => cstr b | None => [] end).
  eapply tri_seq with (F := [(a, mkB Many (Text x))]); [apply (tri_text _ _ PArg (Some a) (Some x) Logic.I); left; discriminate|perm|].
  intros s G (Es & ->). injection Es as <-. eapply tri_ret; [perm|]. split; [reflexivity|]. eexists. reflexivity.
Qed.

Lemma tri_cpp_file : forall E fs a, tri NoU E [] (cpp_base64_file fs a)
  (fun s G => match encoded fs a with Some x => s = x /\ exists b, G = [b] | None => s = [] /\ G = [] end).
Proof.
  intros E fs a. unfold cpp_base64_file. eapply tri_seq; [apply tri_base64|perm|]. intros p G (C & ->).
  destruct (encoded fs a) as [s|], p as [x|]; try (now destruct C).
  - eapply tri_last; [eapply tri_text; [exact C|left; discriminate]|perm|]. intros s' G (Es & ->). injection Es as <-.
    eexists. split; [perm|]. split; [reflexivity|]. eexists. reflexivity.
  - eapply tri_ret; [perm|auto].
Qed.

(** ** The states correspond *)

(** Objects with their values, pointers with theirs. *)
Definition opair := (option resolver * vobj)%type.
Definition ppair := (ptr * vptr)%type.

Definition ogood (x : opair) : Prop :=
  match x with
  | (None, None) => True
  | (Some r, Some (c, m)) => r_code r = c /\ ctext (r_msg r) m
  | _ => False
  end.
Definition ofoot (x : opair) : foot :=
  match x with (Some r, Some (_, m)) => ftext (r_msg r) m | _ => [] end.

Definition pgood (h : heap) (x : ppair) : Prop :=
  match x with
  | (None, VNull) | (Some _, VText _) => True
  | (Some a, VFreed) => a < h_next h /\ lookup a (h_live h) = None
  | _ => False
  end.
Definition pfoot (x : ppair) : foot :=
  match x with (Some a, VText s) => [(a, mkB Many (Text s))] | _ => [] end.

Definition related (st : bstate) (v : view) (h : heap) : Prop :=
  exists (os : list opair) (ps : list ppair) (L : foot),
    bs_objs st = map fst os /\ v_objs v = map snd os /\ Forall ogood os /\
    bs_ptrs st = map fst ps /\ v_ptrs v = map snd ps /\ Forall (pgood h) ps /\
    length L = v_lost v /\ Sat h (flat_map ofoot os ++ flat_map pfoot ps ++ L).

Lemma related_size : forall st v h, related st v h -> length (h_live h) = held v + v_lost v.
Proof.
  intros st v h (os & ps & L & _ & Eo & Go & _ & Ep & Gp & El & S). destruct S as (P & _).
  rewrite (Permutation_length P), !app_length, El. unfold held. rewrite Eo, Ep.
  assert (A : length (flat_map ofoot os) = length (filter (fun o => match o with Some (_, Some _) => true | _ => false end) (map snd os))).
  { clear - Go. induction Go as [|[r o] os G Gs IH]; [reflexivity|]. cbn [flat_map map snd filter]. rewrite app_length, IH.
    destruct r as [[c p]|], o as [[z [m|]]|]; cbn in *; try easy; destruct p; cbn in *; try easy; now destruct G. }
  assert (C : length (flat_map pfoot ps) = length (filter (fun p => match p with VText _ => true | _ => false end) (map snd ps))).
  { clear - Gp. induction Gp as [|[r o] ps G Gs IH]; [reflexivity|]. cbn [flat_map map snd filter]. rewrite app_length, IH.
    destruct r, o; cbn in *; easy. }
  rewrite A, C. lia.
Qed.

Lemma pgood_later : forall A (m : H A) h ps, fresh m -> Forall (pgood h) ps -> Forall (pgood (snd (m h))) ps.
Proof.
  intros A m h ps F G. eapply Forall_impl; [|exact G]. intros [[a|] []]; cbn; try easy. intros [L N]. destruct (F h) as [F1 F2].
  split; [lia|auto].
Qed.

Lemma set_nth_map : forall A C (f : A -> C) i x l, map f (set_nth i x l) = set_nth i (f x) (map f l).
Proof. intros A C f i x l. revert i. induction l as [|y l IH]; intros [|i]; cbn; [reflexivity..|]. now rewrite IH. Qed.

Lemma nth_split_set : forall A (l : list A) i x, nth_error l i = Some x ->
  exists p q, l = p ++ x :: q /\ length p = i /\ forall y, set_nth i y l = p ++ y :: q.
Proof.
  intros A l. induction l as [|z l IH]; intros [|i] x H; cbn in H; try discriminate.
  - injection H as ->. exists [], l. cbn. auto.
  - destruct (IH _ _ H) as (p & q & -> & Lp & K). exists (z :: p), q. cbn. repeat split; [lia|]. intro y. now rewrite K.
Qed.

Lemma nth_map : forall A C (f : A -> C) l i, nth_error (map f l) i = option_map f (nth_error l i).
Proof. intros A C f l. induction l as [|x l IH]; intros [|i]; cbn; auto. Qed.

(** The object number [i] on both sides. *)
Lemma find_object : forall os i st v, bs_objs st = map fst os -> v_objs v = map snd os -> Forall ogood os ->
  (obj i st = None /\ vget i v = None) \/
  exists r c m, obj i st = Some r /\ vget i v = Some (c, m) /\ nth_error os i = Some (Some r, Some (c, m)) /\
    r_code r = c /\ ctext (r_msg r) m.
Proof.
  intros os i st v E1 E2 G. unfold obj, vget. rewrite E1, E2, !nth_map. destruct (nth_error os i) as [x|] eqn:E; cbn [option_map]; [|auto].
  rewrite Forall_forall in G.
  assert (Gx : ogood x) by (apply G; eapply nth_error_In; exact E). destruct x as [[r|] [[c m]|]]; cbn in Gx; try easy; [|auto].
  right. exists r, c, m. cbn. intuition auto.
Qed.

Lemma flat_set : forall A (f : A -> foot) l i x y, nth_error l i = Some x ->
  Permutation (f x ++ flat_map f (set_nth i y l)) (f y ++ flat_map f l).
Proof.
  intros A f l i x y E. destruct (nth_split_set _ _ _ _ E) as (p & q & -> & _ & K). rewrite K, !flat_map_app. cbn [flat_map].
  set (P := flat_map f p). set (Q := flat_map f q). set (X := f x). set (Y := f y).
  perm.
Qed.

Lemma flat_in : forall A (f : A -> foot) l i x, nth_error l i = Some x -> exists R, Permutation (flat_map f l) (f x ++ R).
Proof.
  intros A f l i x E. destruct (nth_split_set _ _ _ _ E) as (p & q & -> & _ & _). rewrite flat_map_app. cbn [flat_map].
  exists (flat_map f p ++ flat_map f q). set (P := flat_map f p). set (Q := flat_map f q). set (X := f x). perm.
Qed.

Lemma set_good : forall A (P : A -> Prop) l i y, Forall P l -> P y -> Forall P (set_nth i y l).
Proof.
  intros A P l i y G. revert i. induction G as [|x l Gx G IH]; intros [|i] Py; cbn; constructor; auto.
Qed.

Lemma set_same : forall A (l : list A) i x, nth_error l i = Some x -> set_nth i x l = l.
Proof.
  intros A l. induction l as [|y l IH]; intros [|i] x E; cbn in *; try discriminate.
  - now injection E as ->.
  - now rewrite (IH _ _ E).
Qed.

Lemma nth_set_other : forall A (l : list A) i j y, i <> j -> nth_error (set_nth i y l) j = nth_error l j.
Proof. intros A l. induction l as [|x l IH]; intros [|i] [|j] y N; cbn; try easy. apply IH. lia. Qed.

(** ** One operation *)

Lemma tri_run : forall A F (m : H A) Q h T X, tri NoU (fun _ => False) F m Q -> Sat h T -> Permutation T (F ++ X) ->
  exists a h' G, m h = (Done a, h') /\ Q a G /\ Sat h' (G ++ X).
Proof.
  intros A F m Q h T X K S P. specialize (K h X (Sat_perm _ _ _ P S)). destruct (m h) as [[a| |u| | |] h']; try easy.
  - destruct K as (G & q & S'). eauto 6.
  - destruct K as (G & [] & _).
Qed.

Lemma fill_outcomes : forall c b mx, (exists r, getErrorMessage_r c b mx = Done r) \/ exists u, getErrorMessage_r c b mx = Undef u.
Proof.
  intros c [b|] mx; unfold getErrorMessage_r; [|eauto]. destruct (mx =? 0)%N; [eauto|].
  destruct (mx - 1 <? slen (error_message c))%N; unfold write_buf;
    match goal with |- context [if ?x then _ else _] => destruct x end; cbn; eauto.
Qed.

Lemma fill_undef : forall c b mx u h, getErrorMessage_r c b mx = Undef u -> exists h', fill_error_message c b mx h = (Undef u, h').
Proof. intros c b mx u h E. unfold fill_error_message, hbind, resolver_new, h_dup, hbind, h_new, hret, hlift. rewrite E. eauto. Qed.

Definition step_ok (o : bop) (st : bstate) (v : view) (h : heap) : Prop :=
  match vexec o v with
  | Done (x, v') => exists st' h', bexec o st h = (Done (x, st'), h') /\ related st' v' h'
  | Undef u => exists h', bexec o st h = (Undef u, h')
  | _ => False
  end.

Lemma related_intro : forall os ps L st v h T,
  bs_objs st = map fst os -> v_objs v = map snd os -> Forall ogood os ->
  bs_ptrs st = map fst ps -> v_ptrs v = map snd ps -> Forall (pgood h) ps -> length L = v_lost v ->
  Sat h T -> Permutation T (flat_map ofoot os ++ flat_map pfoot ps ++ L) -> related st v h.
Proof.
  intros os ps L st v h T E1 E2 Go E3 E4 Gp El S P. exists os, ps, L. repeat (split; [assumption|]).
  eapply Sat_perm; [exact P|exact S].
Qed.

Ltac shape := repeat rewrite flat_map_app; cbn [flat_map ofoot pfoot app]; repeat rewrite app_nil_r.

Lemma ctext_none : forall p, ctext p None -> p = None.
Proof. now intros [a|]. Qed.

(** The operations on objects, by their effect on the pairs. *)
Lemma objects_intro : forall os ps L st v h os' T,
  bs_ptrs st = map fst ps -> v_ptrs v = map snd ps -> Forall (pgood h) ps -> length L = v_lost v ->
  Forall ogood os' -> Sat h T -> Permutation T (flat_map ofoot os' ++ flat_map pfoot ps ++ L) ->
  bs_objs st = map fst os -> v_objs v = map snd os ->
  related (mkBS (map fst os') (bs_ptrs st)) (mkV (map snd os') (v_ptrs v) (v_lost v)) h.
Proof. intros. eapply related_intro with (os := os') (ps := ps) (L := L); cbn; eauto. Qed.

Lemma perm_swap_app : forall (A C D R : foot), Permutation A (C ++ R) -> Permutation (A ++ D) (C ++ (R ++ D)).
Proof. intros A C D R P. rewrite app_assoc. now apply Permutation_app_tail. Qed.

Lemma assign_null : forall x y st h h', h_del Many (r_msg x) h = (Done tt, h') -> r_msg y = None ->
  exists h'', (r <~ resolver_assign x y ;; hret (st r : bobs * bstate)) h = (Undef (UB_NullDeref PArg), h'').
Proof.
  intros x y st h h' E N. exists h'. unfold resolver_assign, hbind. rewrite E, N. reflexivity.
Qed.

Lemma step_related : forall o st v h, related st v h -> step_ok o st v h.
Proof.
  intros o st v h (os & ps & L & E1 & E2 & Go & E3 & E4 & Gp & El & S).
  assert (Gp' : Forall (pgood (snd (bexec o st h))) ps) by (apply pgood_later; [apply fresh_bexec|exact Gp]).
  assert (Same : related st v h) by (exists os, ps, L; auto 10).
  set (rest := flat_map pfoot ps ++ L) in *.
  unfold step_ok. destruct o; cbn [vexec].
  - (* BMake *)
    destruct (tri_run _ _ _ _ h _ (flat_map ofoot os ++ rest) (tri_resolver_new _ c) S ltac:(apply Permutation_refl)) as (r & h' & G & Em & (C1 & C2 & ->) & S').
    cbn [bexec] in *. unfold hbind in *. rewrite Em in *. cbn [hret snd] in *. eexists. eexists. split; [reflexivity|].
    rewrite E1, E2.
    replace (map fst os ++ [Some r]) with (map fst (os ++ [(Some r, Some (c, Some (getErrorMessage c)))])) by (rewrite map_app; reflexivity).
    replace (map snd os ++ [Some (c, Some (getErrorMessage c))]) with (map snd (os ++ [(Some r, Some (c, Some (getErrorMessage c)))])) by (rewrite map_app; reflexivity).
    eapply objects_intro; eauto.
    + apply Forall_app. split; [exact Go|]. constructor; [cbn; auto|constructor].
    + rewrite flat_map_app. cbn [flat_map ofoot]. rewrite app_nil_r. fold rest.
      set (A := flat_map ofoot os). set (D := ftext _ _). perm.
  - (* BCopy *)
    cbn [bexec] in *. destruct (find_object os i st v E1 E2 Go) as [[Eo Ev]|(r & c & m & Eo & Ev & En & Ec & Cm)]; rewrite Eo, Ev in *.
    { eexists. eexists. split; [reflexivity|exact Same]. }
    destruct m as [s|].
    2:{ exists h. unfold hbind, resolver_copy, hbind. rewrite (ctext_none _ Cm). reflexivity. }
    destruct (flat_in _ ofoot _ _ _ En) as (R & PR). cbn [ofoot] in PR. destruct r as [rc rp]. cbn [r_msg r_code] in *. subst rc.
    destruct (tri_run _ _ _ _ h _ (R ++ rest) (tri_resolver_copy _ c rp s Cm) S (perm_swap_app _ _ _ _ PR)) as (r' & h' & G & Em & (C1 & C2 & ->) & S').
    unfold hbind in *. rewrite Em in *. cbn [hret snd] in *. eexists. eexists. split; [reflexivity|].
    rewrite E1, E2.
    replace (map fst os ++ [Some r']) with (map fst (os ++ [(Some r', Some (c, Some s))])) by (rewrite map_app; reflexivity).
    replace (map snd os ++ [Some (c, Some s)]) with (map snd (os ++ [(Some r', Some (c, Some s))])) by (rewrite map_app; reflexivity).
    eapply objects_intro; eauto.
    + apply Forall_app. split; [exact Go|]. constructor; [cbn; auto|constructor].
    + rewrite flat_map_app. cbn [flat_map ofoot]. rewrite app_nil_r. fold rest.
      transitivity ((flat_map ofoot os ++ ftext (r_msg r') (Some s)) ++ rest); [|rewrite <- !app_assoc; apply Permutation_refl].
      rewrite PR. set (D := ftext (r_msg r') _). set (D' := ftext rp _). perm.
  - (* BMove *)
    cbn [bexec] in *. destruct (find_object os i st v E1 E2 Go) as [[Eo Ev]|(r & c & m & Eo & Ev & En & Ec & Cm)]; rewrite Eo, Ev in *.
    { eexists. eexists. split; [reflexivity|exact Same]. }
    cbn [hbind resolver_move hret snd fst] in *. eexists. eexists. split; [reflexivity|].
    set (os' := set_nth i (Some (mkR 0 None), empty_object) os ++ [(Some r, Some (c, m))]).
    rewrite E1, E2.
    replace (set_nth i (Some (mkR 0 None)) (map fst os) ++ [Some r]) with (map fst os') by (unfold os'; rewrite map_app, set_nth_map; reflexivity).
    replace (set_nth i empty_object (map snd os) ++ [Some (c, m)]) with (map snd os') by (unfold os'; rewrite map_app, set_nth_map; reflexivity).
    eapply objects_intro; eauto; unfold os'.
    + apply Forall_app. split; [apply set_good; [exact Go|cbn; auto]|]. constructor; [cbn; auto|constructor].
    + assert (PS := flat_set _ ofoot os i _ (Some (mkR 0 None), empty_object) En). cbn [ofoot empty_object ftext r_msg app] in PS.
      rewrite flat_map_app. cbn [flat_map ofoot]. rewrite app_nil_r. fold rest. apply Permutation_app_tail.
      rewrite <- PS. apply Permutation_app_comm.
  - (* BAssign *)
    cbn [bexec] in *.
    destruct (find_object os i st v E1 E2 Go) as [[Eo Ev]|(r & c & m & Eo & Ev & En & Ec & Cm)]; rewrite Eo, Ev in *.
    { eexists. eexists. split; [reflexivity|exact Same]. }
    destruct (find_object os j st v E1 E2 Go) as [[Eo' Ev']|(r2 & c2 & m2 & Eo' & Ev' & En' & Ec' & Cm')]; rewrite Eo', Ev' in *.
    { eexists. eexists. split; [reflexivity|exact Same]. }
    destruct (Nat.eqb_spec i j) as [->|Nij].
    { eexists. eexists. split; [reflexivity|exact Same]. }
    cbn [snd].
    (* the target is emptied *)
    assert (PS := flat_set _ ofoot os i _ (Some (mkR 0 None), empty_object) En). cbn [ofoot empty_object ftext r_msg app] in PS.
    set (os0 := set_nth i (Some (mkR 0 None), Some (0%Z, None)) os) in PS.
    destruct (tri_run _ _ _ _ h _ (flat_map ofoot os0 ++ rest) (tri_del_text NoU _ (r_msg r) m Cm) S
      ltac:(rewrite app_assoc; apply Permutation_app_tail; symmetry; exact PS)) as ([] & h1 & G & Ed & -> & S1). cbn [app] in S1.
    destruct m2 as [s|].
    2:{ exact (assign_null r r2 (fun r0 => (SeeNothing, mkBS (set_nth i (Some r0) (bs_objs st)) (bs_ptrs st))) h h1 Ed (ctext_none _ Cm')). }
    assert (En0 : nth_error os0 j = Some (Some r2, Some (c2, Some s))) by (unfold os0; rewrite nth_set_other by exact Nij; exact En').
    destruct (flat_in _ ofoot _ _ _ En0) as (R & PR). cbn [ofoot] in PR. destruct r2 as [rc rp]. cbn [r_msg r_code] in *. subst rc.
    destruct (tri_run _ _ _ _ h1 _ (R ++ rest) (tri_resolver_copy _ c2 rp s Cm') S1 (perm_swap_app _ _ _ _ PR)) as (r' & h' & G & Em & (C1 & C2 & ->) & S').
    assert (Ea : resolver_assign r (mkR c2 rp) h = (Done r', h')).
    { unfold resolver_assign, hbind at 1. rewrite Ed. exact Em. }
    unfold hbind in *. rewrite Ea in *. cbn [hret snd] in *. eexists. eexists. split; [reflexivity|].
    set (os' := set_nth i (Some r', Some (c2, Some s)) os).
    rewrite E1, E2.
    replace (set_nth i (Some r') (map fst os)) with (map fst os') by (unfold os'; rewrite set_nth_map; reflexivity).
    replace (set_nth i (Some (c2, Some s)) (map snd os)) with (map snd os') by (unfold os'; rewrite set_nth_map; reflexivity).
    eapply objects_intro; eauto; unfold os'.
    + apply set_good; [exact Go|cbn; auto].
    + assert (PS' := flat_set _ ofoot os i _ (Some r', Some (c2, Some s)) En). cbn [ofoot] in PS'.
      fold rest. rewrite app_assoc. apply Permutation_app_tail.
      (* ftext rp s ++ ftext r' s ++ R ~ flat os' *)
      apply (Permutation_app_inv_l (ftext (r_msg r) m)). rewrite PS'.
      transitivity (ftext (r_msg r') (Some s) ++ ftext (r_msg r) m ++ flat_map ofoot os0).
      * rewrite PR. set (D := ftext (r_msg r') _). set (D' := ftext rp _). set (D'' := ftext (r_msg r) _). perm.
      * apply Permutation_app_head. exact PS.
  - (* BMoveAssign *)
    cbn [bexec] in *.
    destruct (find_object os i st v E1 E2 Go) as [[Eo Ev]|(r & c & m & Eo & Ev & En & Ec & Cm)]; rewrite Eo, Ev in *.
    { eexists. eexists. split; [reflexivity|exact Same]. }
    destruct (find_object os j st v E1 E2 Go) as [[Eo' Ev']|(r2 & c2 & m2 & Eo' & Ev' & En' & Ec' & Cm')]; rewrite Eo', Ev' in *.
    { eexists. eexists. split; [reflexivity|exact Same]. }
    destruct (Nat.eqb_spec i j) as [->|Nij].
    { eexists. eexists. split; [reflexivity|exact Same]. }
    set (os1 := set_nth i (Some r2, Some (c2, m2)) os).
    set (os' := set_nth j (Some (mkR 0 None), empty_object) os1).
    assert (PS := flat_set _ ofoot os i _ (Some r2, Some (c2, m2)) En). cbn [ofoot] in PS. fold os1 in PS.
    assert (En1 : nth_error os1 j = Some (Some r2, Some (c2, m2))) by (unfold os1; rewrite nth_set_other by exact Nij; exact En').
    assert (PS1 := flat_set _ ofoot os1 j _ (Some (mkR 0 None), empty_object) En1). cbn [ofoot empty_object ftext r_msg app] in PS1.
    assert (PT : Permutation (flat_map ofoot os) (ftext (r_msg r) m ++ flat_map ofoot os')).
    { apply (Permutation_app_inv_l (ftext (r_msg r2) m2)). transitivity (ftext (r_msg r) m ++ flat_map ofoot os1); [symmetry; exact PS|].
      transitivity (ftext (r_msg r) m ++ ftext (r_msg r2) m2 ++ flat_map ofoot os'); [apply Permutation_app_head; symmetry; exact PS1|].
      rewrite !app_assoc. apply Permutation_app_tail, Permutation_app_comm. }
    destruct (tri_run _ _ _ _ h _ (flat_map ofoot os' ++ rest) (tri_del_text NoU _ (r_msg r) m Cm) S (perm_swap_app _ _ _ _ PT))
      as ([] & h1 & G & Ed & -> & S1). cbn [app] in S1.
    unfold resolver_move_assign, hbind in *. rewrite Ed in *. cbn [hret fst snd] in *. eexists. eexists. split; [reflexivity|].
    rewrite E1, E2.
    replace (set_nth j (Some (mkR 0 None)) (set_nth i (Some r2) (map fst os))) with (map fst os') by (unfold os', os1; rewrite !set_nth_map; reflexivity).
    replace (set_nth j empty_object (set_nth i (Some (c2, m2)) (map snd os))) with (map snd os') by (unfold os', os1; rewrite !set_nth_map; reflexivity).
    eapply objects_intro; eauto; unfold os', os1.
    apply set_good; [apply set_good; [exact Go|cbn; auto]|cbn; auto].
  - (* BDestroy *)
    cbn [bexec] in *. destruct (find_object os i st v E1 E2 Go) as [[Eo Ev]|(r & c & m & Eo & Ev & En & Ec & Cm)]; rewrite Eo, Ev in *.
    { eexists. eexists. split; [reflexivity|exact Same]. }
    set (os' := set_nth i (None, None) os : list opair).
    assert (PS := flat_set _ ofoot os i _ (None, None) En). cbn [ofoot app] in PS. fold os' in PS.
    destruct (tri_run _ _ _ _ h _ (flat_map ofoot os' ++ rest) (tri_del_text NoU _ (r_msg r) m Cm) S
      ltac:(rewrite app_assoc; apply Permutation_app_tail; symmetry; exact PS)) as ([] & h1 & G & Ed & -> & S1). cbn [app] in S1.
    unfold resolver_destroy, hbind in *. rewrite Ed in *. cbn [hret fst snd] in *. eexists. eexists. split; [reflexivity|].
    rewrite E1, E2.
    replace (set_nth i None (map fst os)) with (map fst os') by (unfold os'; rewrite set_nth_map; reflexivity).
    replace (set_nth i None (map snd os)) with (map snd os') by (unfold os'; rewrite set_nth_map; reflexivity).
    eapply objects_intro; eauto; unfold os'.
    apply set_good; [exact Go|cbn; auto].
  - (* BCode *)
    cbn [bexec] in *. destruct (find_object os i st v E1 E2 Go) as [[Eo Ev]|(r & c & m & Eo & Ev & En & Ec & Cm)]; rewrite Eo, Ev in *;
      (eexists; eexists; split; [|exact Same]); [reflexivity|]. cbn. rewrite Ec. reflexivity.
  - (* BMessage *)
    cbn [bexec] in *. destruct (find_object os i st v E1 E2 Go) as [[Eo Ev]|(r & c & m & Eo & Ev & En & Ec & Cm)]; rewrite Eo, Ev in *.
    { eexists. eexists. split; [reflexivity|exact Same]. }
    destruct (flat_in _ ofoot _ _ _ En) as (R & PR). cbn [ofoot] in PR.
    destruct (tri_run _ _ _ _ h _ (R ++ rest) (tri_peek NoU _ (r_msg r) m Cm) S (perm_swap_app _ _ _ _ PR)) as (s & h' & G & Em & (-> & ->) & S').
    unfold hbind in *. rewrite Em in *. cbn [hret snd] in *. eexists. eexists. split; [reflexivity|].
    eapply related_intro with (os := os) (ps := ps) (L := L); eauto.
    rewrite PR. rewrite <- app_assoc. apply Permutation_refl.
  - (* BError *)
    destruct (tri_run _ _ _ _ h _ (flat_map ofoot os ++ rest) (tri_error _ c) S ltac:(apply Permutation_refl)) as (p & h' & G & Em & (Cp & ->) & S').
    cbn [bexec] in *. unfold hbind in *. rewrite Em in *. cbn [hret snd] in *. eexists. eexists. split; [reflexivity|].
    destruct p as [a|]; [|destruct Cp].
    eapply related_intro with (os := os) (ps := ps ++ [(Some a, VText (getErrorMessage c))]) (L := L);
      cbn [bs_objs bs_ptrs v_objs v_ptrs v_lost]; try assumption; try exact S'.
    + rewrite E3, map_app. reflexivity.
    + rewrite E4, map_app. reflexivity.
    + apply Forall_app. split; [exact Gp'|]. constructor; [cbn; auto|constructor].
    + rewrite flat_map_app. cbn [flat_map pfoot ftext]. rewrite app_nil_r. unfold rest.
      set (A := flat_map ofoot os). set (P := flat_map pfoot ps). cbn [app]. perm.
  - (* BErrorR *)
    cbn [bexec] in *. destruct (fill_outcomes c buf maxLength) as [(r & Er)|(u & Er)]; rewrite Er.
    + destruct (tri_run _ _ _ _ h _ (flat_map ofoot os ++ rest) (tri_fill _ _ _ _ _ Er) S ltac:(apply Permutation_refl)) as (w & h' & G & Em & (-> & ->) & S').
      unfold hbind in *. rewrite Em in *. cbn [hret snd] in *. eexists. eexists. split; [reflexivity|].
      eapply related_intro with (os := os) (ps := ps) (L := L); eauto; try apply Permutation_refl.
    + destruct (fill_undef _ _ _ _ h Er) as (h' & Eh). exists h'. unfold hbind. rewrite Eh. reflexivity.
  - (* BFile *)
    destruct (tri_run _ _ _ _ h _ (flat_map ofoot os ++ rest) (tri_base64 _ fs a) S ltac:(apply Permutation_refl)) as (p & h' & G & Em & (Cp & ->) & S').
    cbn [bexec] in *. unfold hbind in *. rewrite Em in *. cbn [hret snd] in *. eexists. eexists. split; [reflexivity|].
    eapply related_intro with (os := os) (ps := ps ++ [(p, match encoded fs a with None => VNull | Some s => VText s end)]) (L := L);
      cbn [bs_objs bs_ptrs v_objs v_ptrs v_lost]; try assumption; try exact S'.
    + rewrite E3, map_app. reflexivity.
    + rewrite E4, map_app. reflexivity.
    + apply Forall_app. split; [exact Gp'|]. constructor; [|constructor]. destruct (encoded fs a), p; cbn in *; easy.
    + rewrite flat_map_app. cbn [flat_map]. rewrite app_nil_r. unfold rest.
      assert (Ef : pfoot (p, match encoded fs a with None => VNull | Some s => VText s end) = ftext p (encoded fs a))
        by (destruct (encoded fs a), p; cbn in *; easy). rewrite Ef.
      set (A := flat_map ofoot os). set (P := flat_map pfoot ps). set (D := ftext _ _). perm.
  - (* BRead *)
    cbn [bexec] in *.
    assert (K1 : nth_error (bs_ptrs st) k = option_map fst (nth_error ps k)) by (rewrite E3; apply nth_map).
    assert (K2 : nth_error (v_ptrs v) k = option_map snd (nth_error ps k)) by (rewrite E4; apply nth_map).
    rewrite K1 in Gp'. rewrite K1, K2. clear K1 K2. destruct (nth_error ps k) as [[p w]|] eqn:En; cbn [option_map fst snd] in *.
    2:{ eexists. eexists. split; [reflexivity|exact Same]. }
    assert (Gk : pgood h (p, w)) by (rewrite Forall_forall in Gp; apply Gp; eapply nth_error_In; exact En).
    destruct p as [a|], w as [|s|]; cbn in Gk; try easy.
    + destruct (flat_in _ pfoot _ _ _ En) as (R & PR). cbn [pfoot] in PR.
      assert (P0 : Permutation (flat_map ofoot os ++ rest) (ftext (Some a) (Some s) ++ (flat_map ofoot os ++ R ++ L))).
      { unfold rest. rewrite PR. cbn [ftext]. set (A := flat_map ofoot os). cbn [app]. perm. }
      destruct (tri_run _ _ _ _ h _ _ (tri_peek NoU _ (Some a) (Some s) Logic.I) S P0) as (x & h' & G & Em & (-> & ->) & S').
      unfold hbind in *. rewrite Em in *. cbn [hret snd] in *. eexists. eexists. split; [reflexivity|].
      eapply related_intro with (os := os) (ps := ps) (L := L); eauto; fold rest; symmetry; exact P0.
    + destruct Gk as (_ & Nk). exists h. unfold hbind, peek, h_text, hbind, h_get. rewrite Nk. reflexivity.
    + eexists. eexists. split; [reflexivity|exact Same].
  - (* BFree *)
    cbn [bexec] in *.
    assert (K1 : nth_error (bs_ptrs st) k = option_map fst (nth_error ps k)) by (rewrite E3; apply nth_map).
    assert (K2 : nth_error (v_ptrs v) k = option_map snd (nth_error ps k)) by (rewrite E4; apply nth_map).
    rewrite K1 in Gp'. rewrite K1, K2. clear K1 K2. destruct (nth_error ps k) as [[p w]|] eqn:En; cbn [option_map fst snd] in *.
    2:{ eexists. eexists. split; [reflexivity|exact Same]. }
    assert (Gk : pgood h (p, w)) by (rewrite Forall_forall in Gp; apply Gp; eapply nth_error_In; exact En).
    destruct p as [a|], w as [|s|]; cbn in Gk; try easy.
    + set (ps' := set_nth k (Some a, VFreed) ps).
      assert (PS := flat_set _ pfoot ps k _ (Some a, VFreed) En). cbn [pfoot] in PS. fold ps' in PS. change ([] ++ flat_map pfoot ps) with (flat_map pfoot ps) in PS.
      assert (P0 : Permutation (flat_map ofoot os ++ rest) (ftext (Some a) (Some s) ++ (flat_map ofoot os ++ flat_map pfoot ps' ++ L))).
      { transitivity (flat_map ofoot os ++ (a, mkB Many (Text s)) :: flat_map pfoot ps' ++ L).
        - unfold rest. apply Permutation_app_head. symmetry. exact (Permutation_app_tail L PS).
        - cbn [ftext app]. symmetry. apply Permutation_middle. }
      destruct (tri_run _ _ _ _ h _ _ (tri_del_text NoU _ (Some a) (Some s) Logic.I) S P0) as ([] & h' & G & Em & -> & S').
      assert (Sa := Sat_perm _ _ _ P0 S). cbn [ftext app] in Sa, S'.
      assert (La : a < h_next h). { destruct Sa as (_ & _ & Fa). inversion Fa; subst. assumption. }
      assert (Na : lookup a (h_live h') = None).
      { destruct Sa as (_ & Nd & _). cbn in Nd. inversion Nd as [|? ? Ni _]; subst. destruct S' as (P' & _).
        destruct (lookup a (h_live h')) as [b|] eqn:Lb; [|reflexivity]. exfalso. apply Ni.
        assert (Ib : In a (map fst (h_live h'))).
        { clear - Lb. induction (h_live h') as [|[y c] l IH]; cbn in *; [discriminate|]. destruct (Nat.eqb_spec a y); auto. }
        eapply Permutation_in; [apply Permutation_map; exact P'|exact Ib]. }
      assert (Lh : h_next h <= h_next h').
      { destruct (fresh_del Many (Some a) h) as [F _]. rewrite Em in F. exact F. }
      unfold hbind in *. rewrite Em in *. cbn [hret snd] in *. eexists. eexists. split; [reflexivity|].
      eapply related_intro with (os := os) (ps := ps') (L := L); cbn [bs_objs bs_ptrs v_objs v_ptrs v_lost]; try assumption; try exact S'.
      * unfold ps'. rewrite set_nth_map. cbn [fst]. rewrite set_same; [exact E3|]. etransitivity; [apply nth_map|]. exact (f_equal (option_map fst) En).
      * unfold ps'. rewrite set_nth_map, E4. reflexivity.
      * unfold ps'. apply set_good; [exact Gp'|]. cbn. split; [lia|exact Na].
      * apply Permutation_refl.
    + destruct Gk as (_ & Nk). exists h. unfold hbind, h_del. rewrite Nk. reflexivity.
    + eexists. eexists. split; [reflexivity|exact Same].
  - (* BText *)
    destruct (tri_run _ _ _ _ h _ (flat_map ofoot os ++ rest) (tri_atts fs l _ []) S ltac:(apply Permutation_refl)) as (s & h' & G & Em & (-> & ->) & S').
    cbn [bexec] in *. unfold hbind in *. rewrite Em in *. cbn [hret snd app] in *. eexists. eexists. split; [reflexivity|].
    eapply related_intro with (os := os) (ps := ps) (L := L); eauto; try apply Permutation_refl.
  - (* BCppError *)
    destruct (tri_run _ _ _ _ h _ (flat_map ofoot os ++ rest) (tri_cpp_error _ c) S ltac:(apply Permutation_refl)) as (s & h' & G & Em & (-> & b & ->) & S').
    cbn [bexec] in *. unfold hbind in *. rewrite Em in *. cbn [hret snd] in *. eexists. eexists. split; [reflexivity|].
    eapply related_intro with (os := os) (ps := ps) (L := b :: L); cbn [bs_objs bs_ptrs v_objs v_ptrs v_lost length]; eauto.
    unfold rest. set (A := flat_map ofoot os). set (P := flat_map pfoot ps). cbn [app]. perm.
  - (* BCppErrorR *)
    cbn [bexec] in *. unfold cpp_getErrorMessage_r. destruct (fill_outcomes c (Some junk) 1024) as [(r & Er)|(u & Er)]; rewrite Er; cbn [obind].
    + assert (Ec : cpp_getErrorMessage_r c junk = Done (fst r, match snd r with Some b => cstr b | None => [] end)) by (unfold cpp_getErrorMessage_r; rewrite Er; reflexivity).
      destruct (tri_run _ _ _ _ h _ (flat_map ofoot os ++ rest) (tri_cpp_fill _ _ _ _ _ Ec) S ltac:(apply Permutation_refl)) as (w & h' & G & Em & (-> & b & ->) & S').
      unfold hbind in *. rewrite Em in *. cbn [hret snd fst] in *. eexists. eexists. split; [reflexivity|].
      eapply related_intro with (os := os) (ps := ps) (L := b :: L); cbn [bs_objs bs_ptrs v_objs v_ptrs v_lost length]; eauto.
      unfold rest. set (A := flat_map ofoot os). set (P := flat_map pfoot ps). cbn [app]. perm.
    + destruct (fill_undef _ _ _ _ (snd (h_new Many (Text (cstr junk)) h)) Er) as (h' & Eh). exists h'.
      unfold cpp_fill_error_message, hbind. cbn [h_new]. cbn [h_new snd] in Eh. rewrite Eh. reflexivity.
  - (* BCppFile *)
    destruct (tri_run _ _ _ _ h _ (flat_map ofoot os ++ rest) (tri_cpp_file _ fs a) S ltac:(apply Permutation_refl)) as (s & h' & G & Em & Q & S').
    cbn [bexec] in *. unfold hbind in *. rewrite Em in *. cbn [hret snd] in *. destruct (encoded fs a) as [x|].
    + destruct Q as (-> & b & ->). eexists. eexists. split; [reflexivity|].
      eapply related_intro with (os := os) (ps := ps) (L := b :: L); cbn [bs_objs bs_ptrs v_objs v_ptrs v_lost length]; eauto.
      unfold rest. set (A := flat_map ofoot os). set (P := flat_map pfoot ps). cbn [app]. perm.
    + destruct Q as (-> & ->). eexists. eexists. split; [reflexivity|].
      eapply related_intro with (os := os) (ps := ps) (L := L); eauto; try apply Permutation_refl.
Qed.

(** ** Programs *)

Lemma hbind_done : forall A C (m : H A) (k : A -> H C) h a h', m h = (Done a, h') -> hbind m k h = k a h'.
Proof. intros A C m k h a h' E. unfold hbind. rewrite E. reflexivity. Qed.
Lemma hbind_undef : forall A C (m : H A) (k : A -> H C) h u h', m h = (Undef u, h') -> hbind m k h = (Undef u, h').
Proof. intros A C m k h u h' E. unfold hbind. rewrite E. reflexivity. Qed.

Lemma run_related : forall l st v h, related st v h ->
  match vrun l v with
  | Done (xs, v') => exists st' h', brun l st h = (Done (xs, st'), h') /\ related st' v' h'
  | Undef u => exists h', brun l st h = (Undef u, h')
  | _ => False
  end.
Proof.
  induction l as [|o l IH]; intros st v h R; cbn [vrun brun].
  - eexists. eexists. split; [reflexivity|exact R].
  - assert (K := step_related o st v h R). unfold step_ok in K. destruct (vexec o v) as [[x v1]| |u| | |]; cbn [obind]; try easy.
    + destruct K as (st1 & h1 & E & R1). specialize (IH st1 v1 h1 R1). cbn [snd fst].
      rewrite (hbind_done _ _ _ _ _ _ _ E). cbn [snd fst].
      destruct (vrun l v1) as [[xs v2]| |u| | |]; cbn [obind]; try easy.
      * destruct IH as (st2 & h2 & E2 & R2). rewrite (hbind_done _ _ _ _ _ _ _ E2). eexists. eexists. split; [reflexivity|exact R2].
      * destruct IH as (h2 & E2). exists h2. exact (hbind_undef _ _ _ _ _ _ _ E2).
    + destruct K as (h1 & E). exists h1. exact (hbind_undef _ _ _ _ _ _ _ E).
Qed.

Lemma related_start : related (mkBS [] []) (mkV [] [] 0) empty_heap.
Proof.
  exists [], [], []. cbn. repeat (split; [first [reflexivity|constructor]|]). apply Sat_empty.
Qed.

Lemma program_values : forall l,
  match values l with
  | Done (xs, v) => exists st h, bprogram l = (Done (xs, st), h) /\ length (h_live h) = held v + v_lost v
  | Undef u => exists h, bprogram l = (Undef u, h)
  | _ => False
  end.
Proof.
  intro l. assert (K := run_related l _ _ _ related_start). unfold values, bprogram. destruct (vrun l (mkV [] [] 0)) as [[xs v]| |u| | |]; try easy.
  destruct K as (st & h & E & R). exists st, h. split; [exact E|]. exact (related_size _ _ _ R).
Qed.

Lemma fill_fits : forall c b mx, (mx <= slen b)%N -> exists r, getErrorMessage_r c (Some b) mx = Done r.
Proof.
  intros c b mx L. unfold getErrorMessage_r. destruct (N.eqb_spec mx 0) as [|Z]; [eauto|]. unfold slen in *.
  destruct (N.ltb_spec (mx - 1) (N.of_nat (length (error_message c)))) as [X|X]; unfold write_buf.
  - assert (K : length (firstn (N.to_nat (mx - 1)) (error_message c) ++ [NUL]) <=? length b = true).
    { apply Nat.leb_le. rewrite app_length, firstn_length. cbn. lia. }
    rewrite K. cbn. eauto.
  - assert (K : length (error_message c ++ [NUL]) <=? length b = true).
    { apply Nat.leb_le. rewrite app_length. cbn. lia. }
    rewrite K. cbn. eauto.
Qed.

Lemma sensible_step : forall o v, sensible_op v o -> exists x v', vexec o v = Done (x, v').
Proof.
  intros o v K. destruct o; cbn [vexec sensible_op] in *; try (eexists; eexists; reflexivity).
  - destruct (vget i v) as [[c [m|]]|]; [| exfalso; now apply (K c) |]; eexists; eexists; reflexivity.
  - destruct (vget i v); eexists; eexists; reflexivity.
  - destruct (vget i v); [|eexists; eexists; reflexivity]. destruct (vget j v) as [[c [m|]]|]; [| exfalso; now apply (K c) |];
      try destruct (Nat.eqb i j); eexists; eexists; reflexivity.
  - destruct (vget i v); [|eexists; eexists; reflexivity]. destruct (vget j v); try destruct (Nat.eqb i j); eexists; eexists; reflexivity.
  - destruct (vget i v); eexists; eexists; reflexivity.
  - destruct (vget i v); eexists; eexists; reflexivity.
  - destruct (vget i v); eexists; eexists; reflexivity.
  - destruct buf as [b|]; [|eexists; eexists; reflexivity]. destruct (fill_fits c b maxLength K) as (r & ->). eexists; eexists; reflexivity.
  - destruct (nth_error (v_ptrs v) k) as [[| |]|]; try easy; eexists; eexists; reflexivity.
  - destruct (nth_error (v_ptrs v) k) as [[| |]|]; try easy; eexists; eexists; reflexivity.
  - unfold cpp_getErrorMessage_r. destruct (fill_fits c junk 1024) as (r & ->); [rewrite K; lia|]. eexists; eexists; reflexivity.
  - destruct (encoded fs a); eexists; eexists; reflexivity.
Qed.

Lemma sensible_run : forall l v, sensible l v -> exists xs v', vrun l v = Done (xs, v').
Proof.
  induction l as [|o l IH]; intros v K; cbn [vrun sensible] in *; [eauto|]. destruct K as (K1 & K2).
  destruct (sensible_step o v K1) as (x & v1 & E). rewrite E. cbn [obind snd fst]. destruct (IH v1 (K2 _ _ E)) as (xs & v2 & ->).
  cbn. eauto.
Qed.

Lemma step_lost : forall o v x v', vexec o v = Done (x, v') -> v_lost v' = v_lost v + leaked o.
Proof.
  intros o v x v' E. destruct o; cbn [vexec leaked] in *;
    repeat match goal with
    | H : match ?e with _ => _ end = Done _ |- _ => destruct e; try discriminate H
    | H : (if ?e then _ else _) = Done _ |- _ => destruct e; try discriminate H
    | p : _ * _ |- _ => destruct p
    end; try (injection E as <- <-; cbn; lia).
Qed.

Lemma run_lost : forall l v xs v', vrun l v = Done (xs, v') -> v_lost v' = v_lost v + list_sum (map leaked l).
Proof.
  induction l as [|o l IH]; intros v xs v' E; cbn [vrun] in E.
  - injection E as <- <-. cbn. lia.
  - destruct (vexec o v) as [[x v1]| |u| | |] eqn:E1; cbn [obind] in E; try discriminate E. cbn [snd fst] in E.
    destruct (vrun l v1) as [[ys v2]| |u| | |] eqn:E2; cbn [obind] in E; try discriminate E. injection E as <- <-. cbn [snd].
    rewrite (IH _ _ _ E2), (step_lost _ _ _ _ E1). change (map leaked (o :: l)) with (leaked o :: map leaked l). cbn [list_sum fold_right]. unfold list_sum. lia.
Qed.

Lemma cleaned_held : forall v, cleaned v -> held v = 0.
Proof.
  intros v (A & C). unfold held.
  assert (X : filter (fun o : vobj => match o with Some (_, Some _) => true | _ => false end) (v_objs v) = []).
  { induction A as [|o l -> A IH]; [reflexivity|exact IH]. }
  assert (Y : filter (fun p => match p with VText _ => true | _ => false end) (v_ptrs v) = []).
  { induction C as [|p l K C IH]; [reflexivity|]. cbn. destruct p; [exact IH|now destruct (K s)|exact IH]. }
  apply (f_equal2 (fun a b => length a + length b) X Y).
Qed.

Lemma program_sensible : forall l, sensible l (mkV [] [] 0) ->
  exists xs v st h, values l = Done (xs, v) /\ bprogram l = (Done (xs, st), h).
Proof.
  intros l K. destruct (sensible_run _ _ K) as (xs & v & E). assert (P := program_values l). unfold values in *. rewrite E in *.
  destruct P as (st & h & E2 & _). eauto 6.
Qed.

Lemma program_memory : forall l xs v st h, values l = Done (xs, v) -> bprogram l = (Done (xs, st), h) ->
  length (h_live h) = held v + list_sum (map leaked l).
Proof.
  intros l xs v st h E E2. assert (P := program_values l). rewrite E in P. destruct P as (st' & h' & E3 & L). rewrite E2 in E3. injection E3 as -> ->.
  rewrite L. unfold values in E. rewrite (run_lost _ _ _ _ E). reflexivity.
Qed.

Lemma program_clean : forall l xs v st h, values l = Done (xs, v) -> bprogram l = (Done (xs, st), h) -> cleaned v ->
  Forall (fun o => cpp_op o = false) l -> h_live h = [].
Proof.
  intros l xs v st h E E2 C F. assert (L := program_memory _ _ _ _ _ E E2). rewrite (cleaned_held _ C) in L.
  assert (Z : list_sum (map leaked l) = 0).
  { clear - F. induction F as [|o l Fo F IH]; [reflexivity|]. change (map leaked (o :: l)) with (leaked o :: map leaked l).
    cbn [list_sum fold_right]. unfold list_sum in IH. rewrite IH. destruct o; try discriminate Fo; reflexivity. }
  rewrite Z in L. now destruct (h_live h).
Qed.

Lemma program_leak : forall c n, exists xs v st h, values (repeat (BCppError c) n) = Done (xs, v) /\
  bprogram (repeat (BCppError c) n) = (Done (xs, st), h) /\ cleaned v /\ length (h_live h) = n.
Proof.
  intros c n.
  assert (K : forall k, exists xs, vrun (repeat (BCppError c) n) (mkV [] [] k) = Done (xs, mkV [] [] (k + n))).
  { induction n as [|n IH]; intro k; cbn [repeat vrun].
    - rewrite Nat.add_0_r. eauto.
    - cbn [vexec obind snd fst v_objs v_ptrs v_lost]. destruct (IH (S k)) as (xs & ->). cbn [obind snd fst].
      replace (S k + n) with (k + S n) by lia. eauto. }
  destruct (K 0) as (xs & E). assert (P := program_values (repeat (BCppError c) n)). unfold values in *. rewrite E in *. destruct P as (st & h & E2 & L).
  exists xs, (mkV [] [] (0 + n)), st, h. repeat split; try assumption; constructor.
Qed.

Lemma program_as_values : forall l,
  match values l with
  | Done (xs, _) => exists st h, bprogram l = (Done (xs, st), h)
  | Undef u => exists h, bprogram l = (Undef u, h)
  | _ => False
  end.
Proof. intro l. assert (P := program_values l). destruct (values l) as [[xs v]| |u| | |]; try easy. destruct P as (st & h & E & _). eauto. Qed.

Lemma moved_from : forall c,
  (exists h, bprogram [BMake c; BMove 0; BCopy 0] = (Undef (UB_NullDeref PArg), h)) /\
  (exists h, bprogram [BMake c; BMove 0; BAssign 1 0] = (Undef (UB_NullDeref PArg), h)).
Proof. intro c. split; eexists; reflexivity. Qed.
