(** In every program, careful or not: no object and no block holds the address of
    a block that has not been allocated yet. *)

From Coq Require Import Ascii String List NArith ZArith Bool Arith Lia.
From Verif Require Import Base ModelUtil ModelBase64 ModelAddress ModelAttachment ModelMessage ModelReply ModelHeap SpecHeap
  ModelScarce ProofScarce ProofScarce3.
Import ListNotations.
Open Scope nat_scope.

Definition paddr (o : addr_obj) : list ptr := [ao_email o; ao_name o].
Definition patt (o : att_obj) : list ptr := [to_name o; to_file o; to_cid o].
Definition pcred (o : cred_obj) : list ptr := [co_user o; co_pass o].
Definition pmsg (m : msg_obj) : list ptr := paddr (mo_from m) ++ [mo_to m; mo_cc m; mo_bcc m; mo_subject m; mo_body m; mo_atts m].
Definition pbase (o : base_obj) : list ptr := [bo_server o; bo_log o; bo_resp o; bo_auth o; bo_cred o].
Definition pcpp (o : cpp_obj) : list ptr := po_cred o :: pbase (po_base o).
Definition pobj (o : obj) : list ptr :=
  match o with OAddr x => paddr x | OAtt x => patt x | OCred x => pcred x | OMsg x => pmsg x | OBase x => pbase x | OCpp x => pcpp x | OGone => [] end.
Definition pcont (c : content) : list ptr :=
  match c with Text _ | AuthObj => [] | Cells l => l | AddrObj o => paddr o | AttObj o => patt o | CredObj o => pcred o end.
Definition pone (p : ptr) : list ptr := [p].
Definition pnone {A} (_ : A) : list ptr := [].
Definition ppair {A} (f : A -> list ptr) (x : A * A) : list ptr := f (fst x) ++ f (snd x).

Definition lowl (n : nat) (l : list ptr) : Prop := Forall (low n) l.
Definition lowh (h : heap) : Prop := wfh h /\ Forall (fun x => lowl (h_next h) (pcont (b_content (snd x)))) (h_live h).

Lemma lowl_mono n m l : n <= m -> lowl n l -> lowl m l.
Proof. intros L. apply Forall_impl. intros [x|]; cbn; [lia|auto]. Qed.

Definition fine {A} (n : nat) (f : A -> list ptr) (m : H A) : Prop := forall h o h', lowh h -> n <= h_next h -> m h = (o, h') ->
  lowh h' /\ h_next h <= h_next h' /\ forall a, o = Done a -> lowl (h_next h') (f a).

Lemma fine_bind {A C} n f g (m : H A) (k : A -> H C) : fine n f m -> (forall n' a, n <= n' -> lowl n' (f a) -> fine n' g (k a)) -> fine n g (hbind m k).
Proof.
  intros Fm Fk h o h' W L E. unfold hbind in E. destruct (m h) as [x h1] eqn:Em. destruct (Fm h x h1 W L Em) as (W1 & L1 & R1).
  destruct x as [a| | | | |]; try (injection E as <- <-; split; [exact W1|]; split; [exact L1|discriminate]).
  destruct (Fk (h_next h1) a (Nat.le_trans _ _ _ L L1) (R1 a eq_refl) h1 o h' W1 (Nat.le_refl _) E) as (W2 & L2 & R2).
  split; [exact W2|]. split; [lia|exact R2].
Qed.
Lemma fine_weak {A} n n' f (m : H A) : n <= n' -> fine n f m -> fine n' f m.
Proof. intros L F h o h' W L'. apply F; [exact W|lia]. Qed.
Lemma fine_same {A} n (f : A -> list ptr) (m : H A) : (forall h o h', m h = (o, h') -> h' = h /\ forall a, lowh h -> n <= h_next h -> o = Done a -> lowl (h_next h) (f a)) -> fine n f m.
Proof. intros H h o h' W L E. destruct (H h o h' E) as [-> R]. split; [exact W|]. split; [lia|]. intros a Ea. now apply R. Qed.
Lemma fine_ret {A} n f (a : A) : lowl n (f a) -> fine n f (hret a).
Proof. intros Q. apply fine_same. intros h o h' E. injection E as <- <-. split; [reflexivity|]. intros a' W L E. injection E as <-. now apply (lowl_mono n). Qed.
Lemma fine_lift {A} n (o : outcome A) : fine n pnone (hlift o).
Proof. apply fine_same. intros h x h' E. injection E as <- <-. split; [reflexivity|]. intros. apply Forall_nil. Qed.
Lemma fine_undef {A} n f u : fine n f (@hundef A u).
Proof. apply fine_same. intros h x h' E. injection E as <- <-. split; [reflexivity|discriminate]. Qed.
Lemma fine_throw {A} n f : fine n f (@hlift A Throw).
Proof. apply fine_same. intros h x h' E. injection E as <- <-. split; [reflexivity|discriminate]. Qed.
Lemma lookup_in a l b : lookup a l = Some b -> In (a, b) l.
Proof. induction l as [|[x c] l IH]; [discriminate|]. cbn. destruct (Nat.eqb_spec a x) as [->|]; [intros E; injection E as ->; now left|auto]. Qed.
Lemma remove_incl a l : incl (remove a l) l.
Proof. induction l as [|[x c] l IH]; [now intros y []|]. cbn. destruct (Nat.eqb a x); [intros y I; now right|]. intros y [<-|I]; [now left|right; auto]. Qed.
Lemma fine_get n q p : fine n pcont (h_get q p).
Proof.
  apply fine_same. intros h x h' E. unfold h_get in E. destruct p as [a|]; [|injection E as <- <-; split; [reflexivity|discriminate]].
  destruct (lookup a (h_live h)) as [b|] eqn:La; injection E as <- <-; (split; [reflexivity|]); [|discriminate].
  intros c [_ W] _ Ec. injection Ec as <-. apply lookup_in in La. rewrite Forall_forall in W. exact (W _ La).
Qed.
Lemma fine_new n k c : lowl n (pcont c) -> fine n pone (h_new k c).
Proof.
  intros Q h o h' [W F] L E. injection E as <- <-. split; [split|].
  - now apply wfh_new.
  - cbn [h_next h_live]. apply Forall_cons; [apply (lowl_mono n); [lia|exact Q]|]. eapply Forall_impl; [|exact F]. intros x. apply lowl_mono. lia.
  - cbn [h_next]. split; [lia|]. intros a Ea. injection Ea as <-. apply Forall_cons; [cbn; lia|apply Forall_nil].
Qed.
Lemma fine_put n q p c : lowl n (pcont c) -> fine n pnone (h_put q p c).
Proof.
  intros Q h o h' [W F] L E. unfold h_put in E. destruct p as [a|]; [|injection E as <- <-; split; [now split|]; split; [lia|discriminate]].
  destruct (lookup a (h_live h)) as [b|] eqn:La; injection E as <- <-; [|split; [now split|]; split; [lia|discriminate]].
  split; [split|].
  - apply wfh_put with (b := b); assumption.
  - cbn [h_next h_live]. apply Forall_cons; [apply (lowl_mono n); [lia|exact Q]|]. rewrite Forall_forall in *. intros x I. apply F. now apply remove_incl in I.
  - cbn [h_next]. split; [lia|]. intros. apply Forall_nil.
Qed.
Lemma fine_del n k p : fine n pnone (h_del k p).
Proof.
  intros h o h' [W F] L E. assert (Z : lowh h /\ h_next h <= h_next h /\ forall a : unit, o = Done a -> lowl (h_next h) (pnone a)).
  { split; [now split|]. split; [lia|]. intros. apply Forall_nil. }
  unfold h_del in E. destruct p as [a|]; [|injection E as <- <-; exact Z].
  destruct (lookup a (h_live h)) as [b|] eqn:La; [|injection E as <- <-; exact Z].
  destruct (b_alloc b), k; injection E as <- <-; try exact Z; (split; [split|]; [now apply wfh_remove| |]).
  all: cbn [h_next h_live]; try (split; [lia|]; intros; apply Forall_nil).
  all: rewrite Forall_forall in *; intros x I; apply F; now apply remove_incl in I.
Qed.
Lemma fine_live n p : fine n pnone (h_live_or_double p).
Proof.
  apply fine_same. intros h x h' E. unfold h_live_or_double in E. destruct p as [a|]; [destruct (lookup a (h_live h))|]; injection E as <- <-;
    (split; [reflexivity|]); intros; apply Forall_nil.
Qed.
Lemma fine_loop {A} f (g : nat -> H A) k : forall n i, (forall n' i, n <= n' -> fine n' f (g i)) -> fine n (flat_map f) (h_loop k i g).
Proof.
  induction k as [|k IH]; intros n i G; cbn [h_loop]; [apply fine_ret, Forall_nil|].
  apply (fine_bind n f); [now apply G|]. intros n1 a L1 Q1. apply (fine_bind n1 (flat_map f)); [apply IH; intros; apply G; lia|].
  intros n2 l L2 Q2. apply fine_ret. cbn [flat_map]. apply Forall_app. split; [now apply (lowl_mono n1)|exact Q2].
Qed.

(** Lifting what is known to the current bound, and taking it apart. *)
Ltac lift n' := repeat match goal with Q : lowl ?n _, L : ?n <= n' |- _ => apply (lowl_mono _ _ _ L) in Q end.
Ltac apart := repeat match goal with
  | Q : lowl _ (_ :: _) |- _ => apply Forall_cons_iff in Q as [? Q]
  | Q : lowl _ (_ ++ _) |- _ => apply Forall_app in Q as [? Q]
  | Q : Forall (low _) (_ :: _) |- _ => apply Forall_cons_iff in Q as [? Q]
  | Q : Forall (low _) (_ ++ _) |- _ => apply Forall_app in Q as [? Q]
  end.
Ltac lw := cbn [pcont pobj] in *; unfold lowl, ppair, pcpp, pbase, pmsg, paddr, patt, pcred, pone, pnone in *; cbn [pcont pobj fst snd app ao_email ao_name to_name to_file to_cid co_user co_pass
    mo_from mo_to mo_cc mo_bcc mo_subject mo_body mo_atts bo_server bo_log bo_resp bo_auth bo_cred po_base po_cred] in *; apart;
  repeat first [apply Forall_nil | apply Forall_cons | apply Forall_app; split]; first [assumption | exact Logic.I | auto].
Create HintDb fine.
#[local] Hint Resolve fine_lift fine_undef fine_throw fine_get fine_del fine_live : fine.
#[local] Hint Extern 1 (fine _ _ (h_new _ _)) => apply fine_new; lw : fine.
#[local] Hint Extern 1 (fine _ _ (h_put _ _ _)) => apply fine_put; lw : fine.
Ltac step := match goal with
  | |- fine _ _ (hbind _ _) => eapply fine_bind; [solve [eauto with fine]|let n' := fresh "n" in let L := fresh "L" in intros n' ? L ?; lift n']
  | |- fine _ _ (hret _) => apply fine_ret; lw
  | |- fine _ _ (match ?x with _ => _ end) => destruct x
  | |- _ => solve [eauto with fine]
  end.
Ltac fi := repeat step.

Lemma fine_text n q p : fine n pnone (h_text q p).
Proof. unfold h_text. fi. Qed.
#[local] Hint Resolve fine_text : fine.
Lemma fine_c_read n c : fine n pnone (c_read c).
Proof. unfold c_read. fi. Qed.
#[local] Hint Resolve fine_c_read : fine.
Lemma fine_dup n s : fine n pone (h_dup s).
Proof. unfold h_dup. fi. Qed.
#[local] Hint Resolve fine_dup : fine.
Lemma fine_c_dup n c : fine n pone (c_dup c).
Proof. unfold c_dup. fi. Qed.
#[local] Hint Resolve fine_c_dup : fine.
Lemma fine_addr_new n a b : fine n paddr (addr_new a b).
Proof. unfold addr_new. fi. Qed.
Lemma fine_addr_copy n o : fine n paddr (addr_copy o).
Proof. unfold addr_copy. fi. Qed.
Lemma fine_addr_destroy n o : fine n pnone (addr_destroy o).
Proof. unfold addr_destroy. fi. Qed.
Lemma fine_att_new n a b c : fine n patt (att_new a b c).
Proof. unfold att_new. fi. Qed.
Lemma fine_att_copy n o : fine n patt (att_copy o).
Proof. unfold att_copy. fi. Qed.
Lemma fine_att_destroy n o : fine n pnone (att_destroy o).
Proof. unfold att_destroy. fi. Qed.
Lemma fine_cred_new n a b : fine n pcred (cred_new a b).
Proof. unfold cred_new. fi. Qed.
Lemma fine_cred_copy n o : fine n pcred (cred_copy o).
Proof. unfold cred_copy. fi. Qed.
Lemma fine_cred_destroy n o : fine n pnone (cred_destroy o).
Proof. unfold cred_destroy. fi. Qed.
#[local] Hint Resolve fine_addr_new fine_addr_copy fine_addr_destroy fine_att_new fine_att_copy fine_att_destroy fine_cred_new fine_cred_copy fine_cred_destroy : fine.
Lemma fine_cred_new3 n a b m : fine n pcred (cred_new3 a b m).
Proof. unfold cred_new3. fi. Qed.
Lemma fine_addr_assign n a b : fine n paddr (addr_assign a b).
Proof. unfold addr_assign. fi. Qed.
Lemma fine_att_assign n a b : fine n patt (att_assign a b).
Proof. unfold att_assign. fi. Qed.
Lemma fine_cred_assign n a b : fine n pcred (cred_assign a b).
Proof. unfold cred_assign. fi. Qed.
Lemma fine_new_addr n c : fine n paddr c -> fine n pone (new_addr c).
Proof. intros. unfold new_addr. fi. Qed.
Lemma fine_new_att n c : fine n patt c -> fine n pone (new_att c).
Proof. intros. unfold new_att. fi. Qed.
Lemma fine_new_cred n c : fine n pcred c -> fine n pone (new_cred c).
Proof. intros. unfold new_cred. fi. Qed.
#[local] Hint Resolve fine_cred_new3 fine_addr_assign fine_att_assign fine_cred_assign fine_new_addr fine_new_att fine_new_cred : fine.
Lemma fine_get_addr n p : fine n paddr (get_addr p).
Proof. unfold get_addr. fi. Qed.
Lemma fine_get_att n p : fine n patt (get_att p).
Proof. unfold get_att. fi. Qed.
Lemma fine_get_cred n p : fine n pcred (get_cred p).
Proof. unfold get_cred. fi. Qed.
Lemma fine_get_cells n p : fine n (fun l => l) (get_cells p).
Proof. unfold get_cells. fi. Qed.
#[local] Hint Resolve fine_get_addr fine_get_att fine_get_cred fine_get_cells : fine.
Lemma fine_cell n p i : fine n pone (cell p i).
Proof.
  unfold cell. step. destruct (nth_error a i) eqn:E; [|fi]. apply fine_ret. apply nth_error_In in E. apply Forall_cons; [|apply Forall_nil].
  unfold lowl in H. rewrite Forall_forall in H. auto.
Qed.
#[local] Hint Resolve fine_cell : fine.
Lemma fine_delete_addr n p : fine n pnone (delete_addr p).
Proof. unfold delete_addr. fi. Qed.
Lemma fine_delete_att n p : fine n pnone (delete_att p).
Proof. unfold delete_att. fi. Qed.
Lemma fine_delete_cred n p : fine n pnone (delete_cred p).
Proof. unfold delete_cred. fi. Qed.
#[local] Hint Resolve fine_delete_addr fine_delete_att fine_delete_cred : fine.
Lemma flat_pone l : flat_map pone l = l.
Proof. induction l; [reflexivity|]. cbn. now f_equal. Qed.
Lemma fine_new_cells n k f : (forall n' i, n <= n' -> fine n' pone (f i)) -> fine n pone (new_cells k f).
Proof.
  intros F. unfold new_cells. eapply fine_bind.
  { apply fine_new. cbn [pcont]. apply Forall_forall. intros x I. apply repeat_spec in I as ->. exact Logic.I. }
  intros n1 a L1 Q1. eapply fine_bind; [apply fine_loop; intros; apply F; lia|]. intros n2 l L2 Q2. rewrite flat_pone in Q2. lift n2.
  eapply fine_bind; [apply fine_put; exact Q2|]. intros n3 u L3 _. lift n3. fi.
Qed.
Lemma fine_loop_none {A} n k i (f : nat -> H A) : (forall n' i, fine n' pnone (f i)) -> fine n pnone (h_loop k i f).
Proof.
  intros F h o h' W L E. destruct (fine_loop pnone f k n i (fun n' j _ => F n' j) h o h' W L E) as (W' & L' & _). split; [exact W'|]. split; [exact L'|]. intros. apply Forall_nil.
Qed.
Lemma fine_arr_build {A} n (mk : A -> H ptr) a : (forall n' x, fine n' pone (mk x)) -> fine n pone (arr_build mk a).
Proof. intros F. unfold arr_build. destruct a; [fi|]. apply fine_new_cells. intros n' i _. destruct (nth_error l i); [apply F|fi]. Qed.
Lemma fine_text_build n c : fine n pone (text_build c).
Proof. unfold text_build. fi. Qed.
Lemma fine_arr_addrs n a : fine n pone (arr_build (fun o => new_addr (addr_copy o)) a).
Proof. apply fine_arr_build. intros. fi. Qed.
Lemma fine_arr_atts n a : fine n pone (arr_build (fun o => new_att (att_copy o)) a).
Proof. apply fine_arr_build. intros. fi. Qed.
#[local] Hint Resolve fine_text_build fine_arr_addrs fine_arr_atts : fine.
Lemma fine_msg_new n f t c d s b a : fine n pmsg (msg_new f t c d s b a).
Proof. unfold msg_new. fi. Qed.
Lemma fine_free_addrs n a k : fine n pnone (free_addrs a k).
Proof. unfold free_addrs. eapply fine_bind; [apply fine_loop_none; intros; fi|]. intros. fi. Qed.
Lemma fine_free_atts n a k : fine n pnone (free_atts a k).
Proof. unfold free_atts. eapply fine_bind; [apply fine_loop_none; intros; fi|]. intros. fi. Qed.
#[local] Hint Resolve fine_msg_new fine_free_addrs fine_free_atts : fine.
Lemma fine_drop_addrs n a k : fine n pnone (drop_addrs a k).
Proof. unfold drop_addrs. fi. Qed.
Lemma fine_drop_atts n a k : fine n pnone (drop_atts a k).
Proof. unfold drop_atts. fi. Qed.
#[local] Hint Resolve fine_drop_addrs fine_drop_atts : fine.
Lemma fine_msg_destroy n m : fine n pnone (msg_destroy m).
Proof. unfold msg_destroy. fi. Qed.
Lemma fine_clone_addrs n a k : fine n pone (clone_addrs a k).
Proof. unfold clone_addrs. destruct k; [fi|]. apply fine_new_cells. intros. fi. Qed.
Lemma fine_clone_atts n a k : fine n pone (clone_atts a k).
Proof. unfold clone_atts. destruct k; [fi|]. apply fine_new_cells. intros. fi. Qed.
#[local] Hint Resolve fine_msg_destroy fine_clone_addrs fine_clone_atts : fine.
Lemma fine_msg_copy n m : fine n pmsg (msg_copy m).
Proof. unfold msg_copy. fi. Qed.
Lemma fine_free_some n a k : fine n pnone (match k with O => hret tt | S _ => free_addrs a k end).
Proof. fi. Qed.
Lemma fine_free_some_atts n a k : fine n pnone (match k with O => hret tt | S _ => free_atts a k end).
Proof. fi. Qed.
#[local] Hint Resolve fine_free_some fine_free_some_atts : fine.
Lemma fine_replace_addrs n a k b m : lowl n [a] -> fine n pone (replace_addrs a k b m).
Proof. intros. unfold replace_addrs. fi. Qed.
Lemma fine_replace_atts n a k b m : lowl n [a] -> fine n pone (replace_atts a k b m).
Proof. intros. unfold replace_atts. fi. Qed.
#[local] Hint Resolve fine_msg_copy : fine.
#[local] Hint Extern 1 (fine _ _ (replace_addrs _ _ _ _)) => apply fine_replace_addrs; lw : fine.
#[local] Hint Extern 1 (fine _ _ (replace_atts _ _ _ _)) => apply fine_replace_atts; lw : fine.
Lemma fine_msg_assign n a b : lowl n (pmsg a) -> fine n pmsg (msg_assign a b).
Proof. intros. unfold msg_assign. fi. Qed.
Lemma fine_msg_move n a : lowl n (pmsg a) -> fine n (ppair pmsg) (msg_move a).
Proof. intros. unfold msg_move, addr_move. unfold hbind, hret at 1. apply fine_ret. lw. Qed.
Lemma fine_msg_move_assign n a b : lowl n (pmsg b) -> fine n (ppair pmsg) (msg_move_assign a b).
Proof. intros. unfold msg_move_assign. fi. Qed.
Lemma fine_base_new n c : fine n pbase (base_new c).
Proof. unfold base_new. fi. Qed.
Lemma fine_base_destroy n o : fine n pnone (base_destroy o).
Proof. unfold base_destroy. fi. Qed.
Lemma fine_dup_or_null n p : fine n pone (dup_or_null p).
Proof. unfold dup_or_null. fi. Qed.
Lemma fine_auth_or_null n p : fine n pone (auth_or_null p).
Proof. unfold auth_or_null. fi. Qed.
Lemma fine_cred_or_null n p : fine n pone (cred_or_null p).
Proof. unfold cred_or_null. fi. Qed.
#[local] Hint Resolve fine_base_new fine_base_destroy fine_dup_or_null fine_auth_or_null fine_cred_or_null : fine.
Lemma fine_base_copy n o : fine n pbase (base_copy o).
Proof. unfold base_copy. fi. Qed.
Lemma fine_base_assign n a b : fine n pbase (base_assign a b).
Proof. unfold base_assign. fi. Qed.
Lemma fine_base_move_assign n a b : lowl n (pbase b) -> fine n (ppair pbase) (base_move_assign a b).
Proof. intros. unfold base_move_assign. fi. Qed.
Lemma fine_base_setServerName n o s : lowl n (pbase o) -> fine n pbase (base_setServerName o s).
Proof. intros. unfold base_setServerName. fi. Qed.
Lemma fine_copied n src : fine n pcred src -> fine n pcred (o <~ src ;; cred_copy o).
Proof. intros. fi. Qed.
Lemma fine_base_setCredentials n o src : lowl n (pbase o) -> fine n pcred src -> fine n pbase (base_setCredentials o src).
Proof.
  intros Q F. unfold base_setCredentials. step. eapply fine_bind; [apply fine_new_cred, fine_copied, (fine_weak n); [lia|exact F]|].
  intros n1 p L1 Q1. lift n1. fi.
Qed.
Lemma fine_parse n l : fine n pone (parse_auth l).
Proof. unfold parse_auth. fi. Qed.
#[local] Hint Resolve fine_parse fine_base_copy fine_base_assign : fine.
Lemma fine_auth_loop f : forall n t r, lowl n [r] -> fine n pone (auth_loop f t r).
Proof.
  induction f as [|f IH]; intros n t r Q; cbn [auth_loop]; [fi|]. destruct (find_sub CRLF t); [|fi]. step. destruct a; [fi|].
  eapply (fine_bind _ pone).
  - destruct (skipn _ t); [fi|]. destruct r; fi.
  - intros n3 r3 L3 Q3. apply IH. exact Q3.
Qed.
Lemma fine_base_talk n o t : lowl n (pbase o) -> fine n pbase (base_talk o t).
Proof.
  intros. unfold base_talk. destruct t; try (fi; fail). unfold auth_extract. eapply fine_bind; [apply fine_auth_loop; lw|]. intros n1 p L1 Q1. lift n1. fi.
Qed.
Lemma fine_cpp_setCredentials n o src : lowl n (pcpp o) -> (forall n', n <= n' -> fine n' pcred src) -> fine n pcpp (cpp_setCredentials o src).
Proof.
  intros Q F. unfold cpp_setCredentials. eapply fine_bind; [apply F; lia|]. intros n1 a L1 Q1. lift n1. step. step. step.
  eapply fine_bind; [apply fine_base_setCredentials; [lw|apply fine_ret; lw]|]. intros n5 b L5 Q5. lift n5. step. step.
  eapply fine_bind; [apply fine_new_cred, fine_copied, F; lia|]. intros n8 p L8 Q8. lift n8. fi.
Qed.
Lemma fine_att_setContentId n o c : lowl n (patt o) -> fine n patt (att_setContentId o c).
Proof. intros. unfold att_setContentId. fi. Qed.
Lemma fine_setUsername n o c : lowl n (pcred o) -> fine n pcred (cred_setUsername o c).
Proof. intros. unfold cred_setUsername. fi. Qed.
Lemma fine_setPassword n o c : lowl n (pcred o) -> fine n pcred (cred_setPassword o c).
Proof. intros. unfold cred_setPassword. fi. Qed.
Lemma fine_addr_move_assign n a b : lowl n (paddr b) -> fine n (ppair paddr) (addr_move_assign a b).
Proof. intros. unfold addr_move_assign. fi. Qed.
Lemma fine_att_move_assign n a b : lowl n (patt b) -> fine n (ppair patt) (att_move_assign a b).
Proof. intros. unfold att_move_assign. fi. Qed.
Lemma fine_cred_move_assign n a b : lowl n (pcred b) -> fine n (ppair pcred) (cred_move_assign a b).
Proof. intros. unfold cred_move_assign. fi. Qed.
Lemma fine_peek n p : fine n pnone (peek p).
Proof. unfold peek. fi. Qed.
#[local] Hint Resolve fine_peek : fine.
Lemma fine_read_addr n o : fine n pnone (read_addr o).
Proof. unfold read_addr. fi. Qed.
Lemma fine_read_att n o : fine n pnone (read_att o).
Proof. unfold read_att. fi. Qed.
Lemma fine_read_cred n o : fine n pnone (read_cred o).
Proof. unfold read_cred. fi. Qed.
#[local] Hint Resolve fine_read_addr fine_read_att fine_read_cred : fine.
Lemma fine_read_addrs n a k : fine n pnone (read_addrs a k).
Proof. unfold read_addrs. destruct a; [|fi]. eapply fine_bind; [apply fine_loop_none; intros; fi|]. intros. fi. Qed.
Lemma fine_read_atts n a k : fine n pnone (read_atts a k).
Proof. unfold read_atts. destruct a; [|fi]. eapply fine_bind; [apply fine_loop_none; intros; fi|]. intros. fi. Qed.
#[local] Hint Resolve fine_read_addrs fine_read_atts : fine.
Lemma fine_read_msg n m : fine n pnone (read_msg m).
Proof. unfold read_msg. fi. Qed.
Lemma fine_read_base n o : fine n pnone (read_base o).
Proof. unfold read_base. fi. Qed.
Lemma fine_read_cpp n o : fine n pnone (read_cpp o).
Proof. unfold read_cpp, read_base. fi. Qed.

(** ** Operations *)

Definition ppool (p : pool) : list ptr := flat_map pobj p.
Lemma low_get n p i : lowl n (ppool p) -> lowl n (pobj (get i p)).
Proof.
  intros Q. unfold get. destruct (Nat.lt_ge_cases i (length p)) as [L|L]; [|rewrite nth_overflow by exact L; apply Forall_nil].
  unfold lowl, ppool in *. rewrite Forall_forall in *. intros x I. apply Q. apply in_flat_map. eexists. split; [apply nth_In, L|exact I].
Qed.
Lemma low_set n p : forall i o, lowl n (ppool p) -> lowl n (pobj o) -> lowl n (ppool (set i o p)).
Proof.
  induction p as [|x p IH]; intros i o Q R; [destruct i; exact Q|]. cbn in Q. apply Forall_app in Q as [Q1 Q2].
  destruct i; cbn; apply Forall_app; split; try assumption. now apply IH.
Qed.
Lemma low_push n p o : lowl n (ppool p) -> lowl n (pobj o) -> lowl n (ppool (p ++ [o])).
Proof. intros Q R. unfold ppool. rewrite flat_map_app. apply Forall_app. split; [exact Q|]. cbn. rewrite app_nil_r. exact R. Qed.
Section Pool.
Variables (n : nat) (p : pool).
Hypothesis Q : lowl n (ppool p).
Lemma fine_push m : fine n pobj m -> fine n ppool (push p m).
Proof. intros F. unfold push. eapply fine_bind; [exact F|]. intros n1 o L1 Q1. apply fine_ret. apply low_push; [now apply (lowl_mono n)|exact Q1]. Qed.
Lemma fine_put1 i m : fine n pobj m -> fine n ppool (put1 p i m).
Proof. intros F. unfold put1. eapply fine_bind; [exact F|]. intros n1 o L1 Q1. apply fine_ret. apply low_set; [now apply (lowl_mono n)|exact Q1]. Qed.
Lemma fine_put2 i j m : fine n (ppair pobj) m -> fine n ppool (put2 p i j m).
Proof.
  intros F. unfold put2. eapply fine_bind; [exact F|]. intros n1 [a b] L1 Q1. apply Forall_app in Q1 as [Qa Qb]. apply fine_ret. 
  apply low_set; [apply low_set; [now apply (lowl_mono n)|exact Qa]|exact Qb].
Qed.
Lemma fine_pushput j m : fine n (ppair pobj) m -> fine n ppool (pushput p j m).
Proof.
  intros F. unfold pushput. eapply fine_bind; [exact F|]. intros n1 [a b] L1 Q1. apply Forall_app in Q1 as [Qa Qb]. apply fine_ret.
  apply low_push; [apply low_set; [now apply (lowl_mono n)|exact Qb]|exact Qa].
Qed.
Lemma fine_wrap {A} (c : A -> obj) f m : (forall a, pobj (c a) = f a) -> fine n f m -> fine n pobj (wrap c m).
Proof. intros E F. unfold wrap. eapply fine_bind; [exact F|]. intros n1 a L1 Q1. apply fine_ret. now rewrite E. Qed.
Lemma fine_wrap2 {A} (c : A -> obj) f m : (forall a, pobj (c a) = f a) -> fine n (ppair f) m -> fine n (ppair pobj) (wrap2 c m).
Proof. intros E F. unfold wrap2. eapply fine_bind; [exact F|]. intros n1 [a b] L1 Q1. apply fine_ret. unfold ppair in *. cbn [fst snd] in *. now rewrite !E. Qed.
Lemma fine_hret : fine n ppool (hret p).
Proof. now apply fine_ret. Qed.
Lemma fine_gone i (m : H unit) : fine n pnone m -> fine n ppool (put1 p i (m ;;~ hret OGone)).
Proof. intros F. apply fine_put1. eapply fine_bind; [exact F|]. intros. apply fine_ret. apply Forall_nil. Qed.
Lemma fine_look {A} (m : H A) : fine n pnone m -> fine n ppool (m ;;~ hret p).
Proof. intros F. eapply fine_bind; [exact F|]. intros n1 a L1 _. apply fine_ret. now apply (lowl_mono n). Qed.
Lemma fine_source c src : cred_source p c = Some src -> forall n', n <= n' -> fine n' pcred src.
Proof.
  unfold cred_source. destruct c as [i|i]; pose proof (low_get n p i Q) as G; destruct (get i p); intros E; try discriminate; injection E as <-; intros n' L.
  - apply fine_ret. now apply (lowl_mono n).
  - fi.
  - fi.
Qed.
Lemma fine_hstep o : fine n ppool (hstep p o).
Proof.
  destruct o; cbn [hstep].
  - apply fine_push, (fine_wrap _ paddr); [reflexivity|fi].
  - apply fine_push, (fine_wrap _ patt); [reflexivity|fi].
  - apply fine_push, (fine_wrap _ pcred); [reflexivity|fi].
  - apply fine_push, (fine_wrap _ pcred); [reflexivity|fi].
  - destruct (get from p); try apply fine_hret. destruct (addr_array p to); [|apply fine_hret]. destruct (addr_array p cc); [|apply fine_hret].
    destruct (addr_array p bcc); [|apply fine_hret]. destruct (att_array p atts); [|apply fine_hret].
    apply fine_push, (fine_wrap _ pmsg); [reflexivity|fi].
  - apply fine_push, (fine_wrap _ pbase); [reflexivity|fi].
  - apply fine_push, (fine_wrap _ pcpp); [reflexivity|unfold cpp_new; fi].
  - pose proof (low_get n p i Q) as G. destruct (get i p); [..|apply fine_hret]; apply fine_push; eapply fine_wrap; try (intros; reflexivity); unfold cpp_copy; cbn [pobj] in G; fi.
  - pose proof (low_get n p i Q) as G. destruct (get i p); [..|apply fine_hret]; apply fine_pushput; eapply fine_wrap2; try (intros; reflexivity); cbn [pobj] in G.
    + apply fine_ret. lw.
    + apply fine_ret. lw.
    + apply fine_ret. lw.
    + now apply fine_msg_move.
    + apply fine_ret. lw.
    + unfold cpp_move, base_move, hbind, hret at 1. apply fine_ret. lw.
  - destruct (Nat.eqb i j); [apply fine_hret|]. pose proof (low_get n p i Q) as G. pose proof (low_get n p j Q) as G'.
    destruct (get i p); try apply fine_hret; destruct (get j p); try apply fine_hret; cbn [pobj] in G, G'; apply fine_put1; eapply fine_wrap; try (intros; reflexivity).
    + fi.
    + fi.
    + fi.
    + now apply fine_msg_assign.
    + fi.
    + unfold cpp_assign. fi.
  - destruct (Nat.eqb i j); [apply fine_hret|]. pose proof (low_get n p i Q) as G. pose proof (low_get n p j Q) as G'.
    destruct (get i p); try apply fine_hret; destruct (get j p); try apply fine_hret; cbn [pobj] in G, G'; apply fine_put2; eapply fine_wrap2; try (intros; reflexivity).
    + now apply fine_addr_move_assign.
    + now apply fine_att_move_assign.
    + now apply fine_cred_move_assign.
    + now apply fine_msg_move_assign.
    + now apply fine_base_move_assign.
    + unfold cpp_move_assign. eapply fine_bind; [apply fine_base_move_assign; lw|]. intros n1 [x y] L1 Q1. lift n1. apply fine_ret. lw.
  - pose proof (low_get n p i Q) as G. destruct (get i p); try apply fine_hret. cbn [pobj] in G. apply fine_put1, (fine_wrap _ patt); [reflexivity|]. now apply fine_att_setContentId.
  - pose proof (low_get n p i Q) as G. destruct (get i p); try apply fine_hret. cbn [pobj] in G. apply fine_put1, (fine_wrap _ pcred); [reflexivity|]. now apply fine_setUsername.
  - pose proof (low_get n p i Q) as G. destruct (get i p); try apply fine_hret. cbn [pobj] in G. apply fine_put1, (fine_wrap _ pcred); [reflexivity|]. now apply fine_setPassword.
  - pose proof (low_get n p i Q) as G. destruct (get i p); try apply fine_hret. cbn [pobj] in G. apply fine_put1, (fine_wrap _ pcred); [reflexivity|]. unfold cred_setMethod. fi.
  - pose proof (low_get n p i Q) as G. destruct (get i p); try apply fine_hret; cbn [pobj] in G; apply fine_put1.
    + apply (fine_wrap _ pbase); [reflexivity|]. now apply fine_base_setServerName.
    + apply (fine_wrap _ pcpp); [reflexivity|]. eapply fine_bind; [apply fine_base_setServerName; lw|]. intros n1 b L1 Q1. lift n1. fi.
  - pose proof (low_get n p i Q) as G. destruct (get i p); try apply fine_hret; destruct (cred_source p c) as [src|] eqn:Es; try apply fine_hret; cbn [pobj] in G; apply fine_put1.
    + apply (fine_wrap _ pbase); [reflexivity|]. apply fine_base_setCredentials; [exact G|]. now apply (fine_source c).
    + apply (fine_wrap _ pcpp); [reflexivity|]. apply fine_cpp_setCredentials; [exact G|]. intros. now apply (fine_source c).
  - pose proof (low_get n p i Q) as G. destruct (get i p); try apply fine_hret; cbn [pobj] in G; apply fine_put1.
    + apply (fine_wrap _ pbase); [reflexivity|]. now apply fine_base_talk.
    + apply (fine_wrap _ pcpp); [reflexivity|]. eapply fine_bind; [apply fine_base_talk; lw|]. intros n1 b L1 Q1. lift n1. fi.
  - destruct (get i p); try apply fine_hret; apply fine_look; first [apply fine_read_addr|apply fine_read_att|apply fine_read_cred|apply fine_read_msg|apply fine_read_base|apply fine_read_cpp].
  - destruct (get i p); try apply fine_hret; apply fine_gone; unfold cpp_destroy; fi.
Qed.
End Pool.

Lemma fine_hrun l : forall p h q h', lowh h -> lowl (h_next h) (ppool p) -> hrun l p h = (Done q, h') -> lowh h' /\ lowl (h_next h') (ppool q).
Proof.
  induction l as [|o l IH]; intros p h q h' W Q E; [injection E as <- <-; now split|]. cbn [hrun] in E.
  destruct (hstep p o h) as [x h1] eqn:S. destruct (fine_hstep (h_next h) p Q o h x h1 W (Nat.le_refl _) S) as (W1 & L1 & R1).
  destruct x as [p'| | | | |]; try discriminate.
  - apply (IH p' h1); auto.
  - apply (IH _ h1) in E; auto. apply (lowl_mono _ _ _ L1) in Q. destruct (is_ctor o); [|exact Q]. apply low_push; [exact Q|apply Forall_nil].
Qed.
(** In every program that has run without undefined behaviour so far. *)
Lemma program_low l p h : hexec l = (Done p, h) -> lowh h /\ lowl (h_next h) (ppool p).
Proof. apply fine_hrun; [split; [split|]|]; apply Forall_nil || constructor. Qed.
