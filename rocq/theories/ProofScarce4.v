(** Running out of memory, continued: programs. *)

From Coq Require Import Ascii String List NArith ZArith Bool Arith Lia Permutation.
From Verif Require Import Base ModelUtil ModelBase64 ModelAddress ModelAttachment ModelMessage ModelReply ModelHeap ModelScarce
  SpecHeap SpecScarce ProofText ProofHeap ProofHeap3 ProofHeap5 ProofHeap6 ProofHeap7 ProofHeap8 ProofHeap9
  ProofScarce ProofScarce2 ProofScarce3.
Import ListNotations.
Open Scope nat_scope.

(** ** Enough memory *)

Definition plenty {T A} (ms : Mem T A) (mh : H A) : Prop := forall h, ms None h = (Ended (fst (mh h)) None, snd (mh h)).

Lemma plenty_lift : forall T A (m : H A), @plenty T A (lift m) m.
Proof. intros T A m h. unfold lift. now destruct (m h). Qed.
Lemma plenty_ret : forall T A (a : A), @plenty T A (mret a) (hret a).
Proof. now intros T A a h. Qed.
Lemma plenty_bind : forall T A C (ms : Mem T A) mh (ks : A -> Mem T C) kh, plenty ms mh -> (forall a, plenty (ks a) (kh a)) ->
  plenty (mbind ms ks) (hbind mh kh).
Proof.
  intros T A C ms mh ks kh G K h. unfold mbind, hbind. rewrite (G h). destruct (mh h) as [[a | | u | | | ] h1]; try reflexivity.
  apply K.
Qed.
Lemma plenty_tick : forall T A (t : T) (ks : Mem T A) kh, plenty ks kh -> plenty (tick t ;;+ ks) kh.
Proof. intros T A t ks kh K h. unfold mbind, tick. apply K. Qed.
Lemma plenty_during : forall T T' A (g : T -> T') (ms : Mem T A) mh, plenty ms mh -> plenty (during g ms) mh.
Proof. intros T T' A g ms mh G h. unfold during. now rewrite (G h). Qed.
Lemma plenty_unwinding : forall T T' A act (g : T -> T') (ms : Mem T A) mh, plenty ms mh -> plenty (unwinding act g ms) mh.
Proof. intros T T' A act g ms mh G h. unfold unwinding. now rewrite (G h). Qed.
Lemma plenty_no_throw : forall T T' A (ms : Mem T A) mh, plenty ms mh -> @plenty T' A (no_throw ms) mh.
Proof. intros T T' A ms mh G h. unfold no_throw. now rewrite (G h). Qed.

Create HintDb plenty discriminated.
#[global] Hint Resolve plenty_lift plenty_ret : plenty.
Ltac plentys :=
  repeat first
    [ progress intros | solve [ auto with plenty ]
    | match goal with
      | |- plenty (mbind (tick _) _) _ => apply plenty_tick
      | |- plenty (mbind _ _) (hbind _ _) => apply plenty_bind
      | |- plenty (during _ _) _ => apply plenty_during
      | |- plenty (unwinding _ _ _) _ => apply plenty_unwinding
      | |- plenty (no_throw _) _ => apply plenty_no_throw
      | |- plenty (match ?x with _ => _ end) _ => destruct x
      end ].

Lemma plenty_dup : forall T (t : T) s, plenty (m_dup t s) (h_dup s).
Proof. intros. unfold m_dup. plentys. Qed.
#[global] Hint Resolve plenty_dup : plenty.
Lemma plenty_c_dup : forall T (t : T) c, plenty (m_c_dup t c) (c_dup c).
Proof. intros. unfold m_c_dup, c_dup. plentys. Qed.
#[global] Hint Resolve plenty_c_dup : plenty.
Lemma plenty_addr_new : forall e m, plenty (m_addr_new e m) (addr_new e m).
Proof. intros. unfold m_addr_new, addr_new. plentys. Qed.
Lemma plenty_addr_copy : forall o, plenty (m_addr_copy o) (addr_copy o).
Proof. intros. unfold m_addr_copy, addr_copy. plentys. Qed.
Lemma plenty_addr_assign : forall a b, plenty (m_addr_assign a b) (addr_assign a b).
Proof. intros. unfold m_addr_assign, addr_assign, addr_copy. plentys. Qed.
Lemma plenty_att_new : forall f m c, plenty (m_att_new f m c) (att_new f m c).
Proof. intros. unfold m_att_new, att_new. plentys. Qed.
Lemma plenty_att_copy : forall o, plenty (m_att_copy o) (att_copy o).
Proof. intros. unfold m_att_copy, att_copy. plentys. Qed.
Lemma plenty_att_assign : forall a b, plenty (m_att_assign a b) (att_assign a b).
Proof. intros. unfold m_att_assign, att_assign, att_copy. plentys. Qed.
Lemma plenty_setContentId : forall o c, plenty (m_att_setContentId o c) (att_setContentId o c).
Proof. intros. unfold m_att_setContentId, att_setContentId. plentys. Qed.
Lemma plenty_cred_new : forall u w, plenty (m_cred_new u w) (cred_new u w).
Proof. intros. unfold m_cred_new, cred_new. plentys. Qed.
#[global] Hint Resolve plenty_addr_new plenty_addr_copy plenty_addr_assign plenty_att_new plenty_att_copy plenty_att_assign
  plenty_setContentId plenty_cred_new : plenty.
Lemma plenty_cred_new3 : forall u w m, plenty (m_cred_new3 u w m) (cred_new3 u w m).
Proof. intros. unfold m_cred_new3, cred_new3. plentys. Qed.
Lemma plenty_cred_copy : forall o, plenty (m_cred_copy o) (cred_copy o).
Proof. intros. unfold m_cred_copy, cred_copy. plentys. Qed.
Lemma plenty_cred_assign : forall a b, plenty (m_cred_assign a b) (cred_assign a b).
Proof. intros. unfold m_cred_assign, cred_assign, cred_copy. plentys. Qed.
Lemma plenty_setUsername : forall a u, plenty (m_cred_setUsername a u) (cred_setUsername a u).
Proof. intros. unfold m_cred_setUsername, cred_setUsername. plentys. Qed.
Lemma plenty_setPassword : forall a u, plenty (m_cred_setPassword a u) (cred_setPassword a u).
Proof. intros. unfold m_cred_setPassword, cred_setPassword. plentys. Qed.
#[global] Hint Resolve plenty_cred_new3 plenty_cred_copy plenty_cred_assign plenty_setUsername plenty_setPassword : plenty.
Lemma plenty_new_addr : forall ms mh, plenty ms mh -> plenty (m_new_addr ms) (new_addr mh).
Proof. intros. unfold m_new_addr, new_addr. plentys. Qed.
Lemma plenty_new_att : forall ms mh, plenty ms mh -> plenty (m_new_att ms) (new_att mh).
Proof. intros. unfold m_new_att, new_att. plentys. Qed.
Lemma plenty_new_cred : forall ms mh, plenty ms mh -> plenty (m_new_cred ms) (new_cred mh).
Proof. intros. unfold m_new_cred, new_cred. plentys. Qed.
#[global] Hint Resolve plenty_new_addr plenty_new_att plenty_new_cred : plenty.
Lemma plenty_loop : forall A k i made (fs : nat -> Mem unit A) fh, (forall i, plenty (fs i) (fh i)) ->
  plenty (m_loop k i made fs) (h_loop k i fh).
Proof. intros A k. induction k as [ | k IH]; intros i made fs fh G; cbn; plentys. Qed.
Lemma plenty_new_cells : forall k fs fh, (forall i, plenty (fs i) (fh i)) -> plenty (m_new_cells k fs) (new_cells k fh).
Proof.
  intros. unfold m_new_cells, new_cells. apply plenty_tick, plenty_bind; [ apply plenty_lift | ]. intros a.
  apply plenty_bind; [ now apply plenty_unwinding, plenty_loop | ]. plentys.
Qed.
Lemma plenty_arr_build : forall A (ms : A -> Mem unit ptr) mh a, (forall x, plenty (ms x) (mh x)) -> plenty (m_arr_build ms a) (arr_build mh a).
Proof.
  intros A ms mh [k | l] G; cbn; [ apply plenty_ret | ]. apply plenty_during, plenty_new_cells. intros i.
  destruct (nth_error l i); [ apply G | apply plenty_lift ].
Qed.
Lemma plenty_text_build : forall c, plenty (m_text_build c) (text_build c).
Proof. intros. unfold m_text_build, text_build. plentys. Qed.
Lemma plenty_clone_addrs : forall a k, plenty (m_clone_addrs a k) (clone_addrs a k).
Proof. intros a [ | k]; [ apply plenty_ret | ]. apply plenty_new_cells. plentys. Qed.
Lemma plenty_clone_atts : forall a k, plenty (m_clone_atts a k) (clone_atts a k).
Proof. intros a [ | k]; [ apply plenty_ret | ]. apply plenty_new_cells. plentys. Qed.
Lemma plenty_arr_addrs : forall a, plenty (m_arr_build (fun o => m_new_addr (m_addr_copy o)) a) (arr_build (fun o => new_addr (addr_copy o)) a).
Proof. intros. apply plenty_arr_build. plentys. Qed.
Lemma plenty_arr_atts : forall a, plenty (m_arr_build (fun o => m_new_att (m_att_copy o)) a) (arr_build (fun o => new_att (att_copy o)) a).
Proof. intros. apply plenty_arr_build. plentys. Qed.
#[global] Hint Resolve plenty_text_build plenty_clone_addrs plenty_clone_atts plenty_arr_addrs plenty_arr_atts : plenty.
Lemma plenty_msg_new : forall f t c d s b a, plenty (m_msg_new f t c d s b a) (msg_new f t c d s b a).
Proof. intros. unfold m_msg_new, msg_new. plentys. Qed.
Lemma plenty_msg_copy : forall o, plenty (m_msg_copy o) (msg_copy o).
Proof. intros. unfold m_msg_copy, msg_copy. plentys. Qed.
Lemma plenty_replace_addrs : forall a k b m, plenty (m_replace_addrs a k b m) (replace_addrs a k b m).
Proof. intros. unfold m_replace_addrs, replace_addrs. plentys. Qed.
Lemma plenty_replace_atts : forall a k b m, plenty (m_replace_atts a k b m) (replace_atts a k b m).
Proof. intros. unfold m_replace_atts, replace_atts. plentys. Qed.
#[global] Hint Resolve plenty_msg_new plenty_msg_copy plenty_replace_addrs plenty_replace_atts : plenty.
Lemma plenty_msg_assign : forall a b, plenty (m_msg_assign a b) (msg_assign a b).
Proof. intros. unfold m_msg_assign, msg_assign. plentys. Qed.
Lemma plenty_msg_move_assign : forall T a b, @plenty T _ (m_msg_move_assign a b) (msg_move_assign a b).
Proof. intros. unfold m_msg_move_assign, msg_move_assign. plentys. Qed.
Lemma plenty_base_new : forall s, plenty (m_base_new s) (base_new s).
Proof. intros. unfold m_base_new, base_new. plentys. Qed.
Lemma plenty_dup_or_null : forall T (t : T) p, plenty (m_dup_or_null t p) (dup_or_null p).
Proof. intros T t [a | ]; cbn; plentys. Qed.
Lemma plenty_auth_or_null : forall T (t : T) p, plenty (m_auth_or_null t p) (auth_or_null p).
Proof. intros T t [a | ]; cbn; plentys. Qed.
Lemma plenty_cred_or_null : forall p, plenty (m_cred_or_null p) (cred_or_null p).
Proof. intros [a | ]; cbn; plentys. Qed.
#[global] Hint Resolve plenty_msg_assign plenty_msg_move_assign plenty_base_new plenty_dup_or_null plenty_auth_or_null plenty_cred_or_null : plenty.
Lemma plenty_base_copy : forall o, plenty (m_base_copy o) (base_copy o).
Proof. intros. unfold m_base_copy, base_copy. plentys. Qed.
Lemma plenty_base_assign : forall a b, plenty (m_base_assign a b) (base_assign a b).
Proof. intros. unfold m_base_assign, base_assign. plentys. Qed.
Lemma plenty_setServerName : forall a s, plenty (m_base_setServerName a s) (base_setServerName a s).
Proof. intros. unfold m_base_setServerName, base_setServerName. plentys. Qed.
Lemma plenty_new_cred_from : forall src, plenty (m_new_cred (o <+ lift src ;; m_cred_copy o)) (new_cred (o <~ src ;; cred_copy o)).
Proof. intros. apply plenty_new_cred. plentys. Qed.
#[global] Hint Resolve plenty_new_cred_from plenty_base_copy plenty_base_assign plenty_setServerName : plenty.
Lemma plenty_setCredentials : forall a src, plenty (m_base_setCredentials a src) (base_setCredentials a src).
Proof. intros. unfold m_base_setCredentials, base_setCredentials. plentys. Qed.
Lemma plenty_parse : forall l, plenty (m_parse_auth l) (parse_auth l).
Proof. intros. unfold m_parse_auth, parse_auth. plentys. Qed.
#[global] Hint Resolve plenty_parse plenty_setCredentials : plenty.
Lemma plenty_auth_loop : forall f t r, plenty (m_auth_loop f t r) (auth_loop f t r).
Proof. intros f. induction f as [ | f IH]; intros t r; cbn; plentys. Qed.
Lemma plenty_auth_extract : forall e, plenty (m_auth_extract e) (auth_extract e).
Proof. intros. apply plenty_auth_loop. Qed.
#[global] Hint Resolve plenty_auth_extract : plenty.
Lemma plenty_talk : forall a t, plenty (m_base_talk a t) (base_talk a t).
Proof. intros a [ | [ | ] s | s | e]; cbn [m_base_talk base_talk]; plentys. Qed.
Lemma plenty_cpp_new : forall s, plenty (m_cpp_new s) (cpp_new s).
Proof. intros. unfold m_cpp_new, cpp_new. plentys. Qed.
Lemma plenty_cpp_copy : forall o, plenty (m_cpp_copy o) (cpp_copy o).
Proof. intros. unfold m_cpp_copy, cpp_copy. plentys. Qed.
Lemma plenty_cpp_assign : forall a b, plenty (m_cpp_assign a b) (cpp_assign a b).
Proof. intros. unfold m_cpp_assign, cpp_assign. plentys. Qed.
Lemma plenty_cpp_setCredentials : forall a src, plenty (m_cpp_setCredentials a src) (cpp_setCredentials a src).
Proof. intros. unfold m_cpp_setCredentials, cpp_setCredentials. plentys. Qed.
#[global] Hint Resolve plenty_talk plenty_cpp_new plenty_cpp_copy plenty_cpp_assign plenty_cpp_setCredentials : plenty.

Lemma plenty_push : forall A p (c : A -> obj) ms mh, plenty ms mh -> plenty (m_push p c ms) (push p (wrap c mh)).
Proof.
  intros A p c ms mh G h. unfold m_push, push, wrap, mbind, hbind, during, mret, hret. rewrite (G h). now destruct (mh h) as [[] ?].
Qed.
Lemma plenty_put : forall A p i (c : A -> obj) ms mh, plenty ms mh -> plenty (m_put p i c ms) (put1 p i (wrap c mh)).
Proof.
  intros A p i c ms mh G h. unfold m_put, put1, wrap, mbind, hbind, during, mret, hret. rewrite (G h). now destruct (mh h) as [[] ?].
Qed.

Lemma plenty_step : forall p o, plenty (m_step p o) (hstep p o).
Proof.
  intros p o. destruct o; cbn [m_step hstep]; try apply plenty_lift; try (apply plenty_push; solve [ plentys ]);
    repeat match goal with
    | |- plenty (match ?x with _ => _ end) _ => destruct x
    | |- plenty (lift _) _ => apply plenty_lift
    | |- plenty (mret _) _ => apply plenty_ret
    | |- plenty (m_push _ _ _) _ => apply plenty_push; solve [ plentys ]
    | |- plenty (m_put _ _ _ _) _ => apply plenty_put; solve [ plentys ]
    end.
  intros h. unfold put2, wrap2, mbind, hbind, hret, mret. rewrite (plenty_msg_move_assign pool _ _ h).
  now destruct (msg_move_assign o o0 h) as [[[x y] | | | | | ] h'].
Qed.

Lemma enough_memory : forall l, m_exec (map (fun o => (o, None)) l) = hexec l.
Proof.
  intros l. unfold m_exec, hexec. generalize (@nil obj) empty_heap. induction l as [ | o r IH]; intros p h; [ reflexivity | ].
  cbn [map m_run hrun]. rewrite (plenty_step p o h). destruct (hstep p o h) as [[] h']; cbn [fst snd]; try reflexivity; apply IH.
Qed.

(** ** One operation *)

Lemma gcut_push : forall A n p (c : A -> obj) ms mh, gcut n ms mh -> gcut n (m_push p c ms) (push p (wrap c mh)).
Proof.
  intros A n p c ms mh G q h W L. specialize (G q h W L). unfold m_push, push, wrap, mbind, hbind, during, mret, hret.
  destruct (ms q h) as [[o q' | t | ] h']; [ | | exact G ].
  - destruct G as (-> & G). now destruct o.
  - destruct G as (N & W1 & L1 & K & S). split; [ exact N | ]. split; [ exact W1 | ]. split; [ exact L1 | ]. split; [ exact K | ].
    now destruct (mh h) as [[] h2].
Qed.
Lemma gcut_put1 : forall A n p i (c : A -> obj) ms mh, gcut n ms mh -> gcut n (m_put p i c ms) (put1 p i (wrap c mh)).
Proof.
  intros A n p i c ms mh G q h W L. specialize (G q h W L). unfold m_put, put1, wrap, mbind, hbind, during, mret, hret.
  destruct (ms q h) as [[o q' | t | ] h']; [ | | exact G ].
  - destruct G as (-> & G). now destruct o.
  - destruct G as (N & W1 & L1 & K & S). split; [ exact N | ]. split; [ exact W1 | ]. split; [ exact L1 | ]. split; [ exact K | ].
    now destruct (mh h) as [[] h2].
Qed.
Lemma rcut1_put : forall A n p i (c : A -> obj) ms mh h, rcut1 n ms mh h -> rcut1 n (m_put p i c ms) (put1 p i (wrap c mh)) h.
Proof.
  intros A n p i c ms mh h G q. specialize (G q). unfold m_put, put1, wrap, mbind, hbind, during, mret, hret.
  destruct (ms q h) as [[o q' | t | ] h']; [ | | exact G ].
  - destruct G as (-> & G). now destruct o.
  - destruct G as (N & W1 & L1 & S). split; [ exact N | ]. split; [ exact W1 | ]. split; [ exact L1 | ]. now destruct (mh h) as [[] h2].
Qed.

#[global] Hint Resolve gcut_att_setContentId gcut_cpp_new gcut_cpp_copy : scarce.
Lemma step_gcut : forall n p o, firm p o -> gcut n (m_step p o) (hstep p o).
Proof.
  intros n p o F. destruct o; try easy; cbn [m_step hstep]; try apply gcut_lift; try (apply gcut_push; solve [ auto with scarce ]).
  1,2,4: repeat match goal with
    | |- gcut _ (match ?x with _ => _ end) _ => destruct x
    | |- gcut _ (lift _) _ => apply gcut_lift
    | |- gcut _ (mret _) _ => apply gcut_ret
    | |- gcut _ (m_push _ _ _) _ => apply gcut_push; solve [ auto with scarce ]
    | |- gcut _ (m_put _ _ _ _) _ => apply gcut_put1; solve [ auto with scarce ]
    end.
  - cbn [firm] in F. destruct (get i p), (get j p); try easy; apply gcut_lift.
  - assert (Ft : firm_talk t) by now destruct t. destruct (get i p); try apply gcut_ret; apply gcut_put1; [ now apply gcut_talk | ].
    now apply gcut_map, gcut_during, gcut_talk.
Qed.

Lemma firm_left : forall p o q h p' h', firm p o -> m_step p o q h = (NoMemory p', h') -> p' = p \/ p' = p ++ [OGone].
Proof.
  intros p o q h p' h' F E.
  assert (Push : forall A (c : A -> obj) m, m_push p c m q h = (NoMemory p', h') -> p' = p ++ [OGone]).
  { intros A c m X. unfold m_push, mbind, during, mret in X. destruct (m q h) as [[[] ? | t | ] ?]; try discriminate. now inversion X. }
  assert (Put : forall A i (c : A -> obj) m x, get i p = c x -> i < length p -> (forall t h', m q h = (NoMemory t, h') -> t = x) ->
    m_put p i c m q h = (NoMemory p', h') -> p' = p).
  { intros A i c m x Gx Li Tx X. unfold m_put, mbind, during, mret in X. destruct (m q h) as [[[] ? | t | ] h2] eqn:Em; try discriminate.
    inversion X; subst. rewrite (Tx _ _ eq_refl), <- Gx. clear. revert i. induction p as [ | y r IH]; intros [ | i]; cbn; try reflexivity.
    f_equal. apply IH. }
  assert (Ret : mret p q h = (@NoMemory pool pool p', h') -> p' = p) by discriminate.
  assert (Lift : forall m, @lift pool pool m q h = (NoMemory p', h') -> p' = p).
  { intros m X. unfold lift in X. now destruct (m h). }
  assert (Len : forall i x, get i p = x -> x <> OGone -> i < length p).
  { intros i x Gx Nx. destruct (Nat.lt_ge_cases i (length p)) as [Lt | Ge]; [ exact Lt | ]. unfold get in Gx. rewrite nth_overflow in Gx by exact Ge.
    congruence. }
  destruct o; try easy; cbn [m_step] in E; try (right; exact (Push _ _ _ E)); try (left; exact (Lift _ E)).
  - destruct (get from p); try (left; now apply Ret). destruct (addr_array p to); try (left; now apply Ret).
    destruct (addr_array p cc); try (left; now apply Ret). destruct (addr_array p bcc); try (left; now apply Ret).
    destruct (att_array p atts); try (left; now apply Ret). right; exact (Push _ _ _ E).
  - destruct (get i p); first [ right; exact (Push _ _ _ E) | left; now apply Ret ].
  - cbn [firm] in F. destruct (get i p), (get j p); try easy; left; exact (Lift _ E).
  - left. destruct (get i p) eqn:Gi; try now apply Ret. eapply Put; [ exact Gi | eapply Len; [ exact Gi | discriminate ] | | exact E ].
    intros t h2 X. unfold m_att_setContentId, m_c_dup, m_dup, mbind, lift, tick, mret in X.
    destruct (c_read (eval p c) h) as [[[s | ] | | | | | ] h3]; try discriminate. destruct q as [[ | k] | ]; try discriminate. now inversion X.
  - assert (Tk : forall x x' h2, m_base_talk x t q h = (NoMemory x', h2) -> x' = x).
    { intros x x' h2 X. destruct t as [ | [ | ] s | s | e]; try easy; cbn [m_base_talk] in X.
      - unfold m_dup, mbind, lift, tick, mret in X. destruct (h_text PLog (bo_log x) h) as [[ | | | | | ] h3]; try discriminate.
        destruct q as [[ | k] | ]; try discriminate; [ now inversion X | | ].
        all: cbn in X; destruct (h_del Many (bo_log x) _) as [[] ?] in X; discriminate.
      - unfold mbind, lift, mret in X. destruct (h_text PLog (bo_log x) h) as [[ | | | | | ] h3]; try discriminate.
        destruct (h_put PLog (bo_log x) (Text s) h3) as [[] ?]; discriminate.
      - unfold mbind, during, lift, mret in X. destruct (m_auth_extract e q h) as [[[] ? | ? | ] h3]; try discriminate; [ | now inversion X ].
        destruct (h_del One (bo_auth x) h3) as [[] ?]; discriminate. }
    left. destruct (get i p) eqn:Gi; try now apply Ret.
    + eapply Put; [ exact Gi | eapply Len; [ exact Gi | discriminate ] | | exact E ]. intros x h2 X. exact (Tk _ _ _ X).
    + eapply Put; [ exact Gi | eapply Len; [ exact Gi | discriminate ] | | exact E ]. intros x h2 X. unfold mbind, during, mret in X.
      destruct (m_base_talk (po_base o) t q h) as [[[] ? | b | ] h3] eqn:Et; try discriminate. inversion X; subst.
      rewrite (Tk _ _ _ Et). now destruct o.
Qed.
