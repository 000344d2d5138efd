(** Ownership of arrays of objects. *)

From Coq Require Import Ascii String List NArith ZArith Bool Arith Lia Permutation.
From Verif Require Import Base ModelUtil ModelBase64 ModelAddress ModelAttachment ModelMessage ModelHeap
  ProofText ProofHeap.
Import ListNotations.
Open Scope nat_scope.

Lemma tri_live : forall U E a b,
  tri U E [(a, b)] (h_live_or_double (Some a)) (fun _ G => G = [(a, b)]).
Proof.
  intros U E a b h R S. unfold h_live_or_double. rewrite (Sat_lookup _ _ _ _ S).
  exists [(a, b)]. now split.
Qed.

Lemma tri_cell : forall U E a l i p, nth_error l i = Some p ->
  tri U E [(a, mkB Many (Cells l))] (cell (Some a) i) (fun x G => x = p /\ G = [(a, mkB Many (Cells l))]).
Proof.
  intros U E a l i p N. unfold cell, get_cells.
  apply tri_assoc. eapply tri_seq; [ apply (tri_get _ _ _ a (mkB Many (Cells l))) | perm | ].
  intros c G (-> & ->). cbn [b_content]. apply tri_ret_bind. rewrite N.
  eapply tri_ret; [ perm | now split ].
Qed.

Lemma tri_cell_null : forall (U : ub -> Prop) E i Q, nulls U -> tri U E [] (cell None i) Q.
Proof. intros U E i Q N h R S. cbn. apply N. Qed.

Section Arrays.

Variables (T V : Type) (inj : T -> content)
  (fo : T -> V -> foot) (co : T -> V -> Prop) (wh : V -> Prop)
  (read : ptr -> H T) (copy : T -> H T) (destroy : T -> H unit).

Hypothesis read_spec : forall U E a o,
  tri U E [(a, mkB One (inj o))] (read (Some a)) (fun x G => x = o /\ G = [(a, mkB One (inj o))]).
Hypothesis copy_spec : forall U E o v, co o v -> wh v \/ nulls U ->
  tri U E (fo o v) (copy o) (fun o' G => co o' v /\ wh v /\ G = fo o v ++ fo o' v).
Hypothesis destroy_spec : forall U E o v, co o v ->
  tri U E (fo o v) (destroy o) (fun _ G => G = []).

(** An element of an array: its address, its members, its value. *)
Definition elem := (nat * T * V)%type.
Definition e_at (e : elem) : nat := fst (fst e).
Definition e_obj (e : elem) : T := snd (fst e).
Definition e_val (e : elem) : V := snd e.

Definition felem (e : elem) : foot := (e_at e, mkB One (inj (e_obj e))) :: fo (e_obj e) (e_val e).
Definition celem (e : elem) : Prop := co (e_obj e) (e_val e).
Definition cells (es : list elem) : list ptr := map (fun e => Some (e_at e)) es.
Definition felems (es : list elem) : foot := concat (map felem es).

(** An array member: null, or the array with its elements. *)
Definition garr := option (nat * list elem).
Definition farr (g : garr) : foot :=
  match g with
  | None => []
  | Some (a, es) => (a, mkB Many (Cells (cells es))) :: felems es
  end.
Definition carr (p : ptr) (n : nat) (g : garr) : Prop :=
  match g with
  | None => p = None
  | Some (a, es) => p = Some a /\ n = length es /\ Forall celem es
  end.
Definition gvals (g : garr) : list V :=
  match g with None => [] | Some (_, es) => map e_val es end.

Definition del (p : ptr) : H unit :=
  match p with
  | None => hret tt
  | Some _ => h_live_or_double p ;;~ o <~ read p ;; destroy o ;;~ h_del One p
  end.
Definition free (arr : ptr) (n : nat) : H unit :=
  h_loop n 0 (fun i => p <~ cell arr i ;; del p) ;;~ h_del Many arr.
Definition drop (arr : ptr) (n : nat) : H unit :=
  match arr with None => hret tt | Some _ => free arr n end.
Definition mk (c : H T) : H ptr := o <~ c ;; h_new One (inj o).
Definition clone (arr : ptr) (n : nat) : H ptr :=
  match n with
  | O => hret None
  | S _ => new_cells n (fun i => p <~ cell arr i ;; o <~ read p ;; mk (copy o))
  end.
Definition replace (this : ptr) (n : nat) (other : ptr) (k : nat) : H ptr :=
  match n with O => hret tt | S _ => free this n end ;;~
  match k with O => hret this | S _ => clone other k end.

Lemma tri_elem_del : forall U E e, celem e ->
  tri U E (felem e) (del (Some (e_at e))) (fun _ G => G = []).
Proof.
  intros U E [[a o] v] C. unfold felem, celem, del, e_at, e_obj, e_val in *. cbn [fst snd] in *.
  eapply tri_seq; [ apply (tri_live _ _ a (mkB One (inj o))) | perm | ]. intros _ G ->.
  eapply tri_seq; [ apply (read_spec _ _ a o) | perm | ]. intros x G (-> & ->).
  eapply tri_seq; [ apply (destroy_spec _ _ o v C) | perm | ]. intros _ G ->.
  eapply tri_last; [ apply (tri_del _ _ One a (inj o)) | perm | ].
  intros _ G ->. exists []. split; [ perm | reflexivity ].
Qed.

Lemma tri_mk : forall U E o v, co o v -> wh v \/ nulls U ->
  tri U E (fo o v) (mk (copy o)) (fun p G => exists e, p = Some (e_at e) /\ celem e /\ e_val e = v /\ wh v /\
                                                       G = fo o v ++ felem e).
Proof.
  intros U E o v C N. unfold mk.
  eapply tri_seq; [ apply (copy_spec _ _ o v C N) | perm | ]. intros o' G (C' & W & ->).
  eapply tri_last; [ apply (tri_new _ _ One (inj o')) | perm | ].
  intros p G (a & -> & ->). exists (fo o v ++ felem (a, o', v)). split.
  - unfold felem, e_at, e_obj, e_val. cbn [fst snd]. perm.
  - exists (a, o', v). repeat split; assumption.
Qed.

Lemma nth_cells : forall es1 e es2, nth_error (cells (es1 ++ e :: es2)) (length es1) = Some (Some (e_at e)).
Proof.
  intros es1 e es2. unfold cells. rewrite map_app. rewrite nth_error_app2; rewrite map_length; [ | lia ].
  now rewrite Nat.sub_diag.
Qed.

Lemma loop_del : forall U E a es2 es1, Forall celem es2 ->
  tri U E ((a, mkB Many (Cells (cells (es1 ++ es2)))) :: felems es2)
    (h_loop (length es2) (length es1) (fun i => p <~ cell (Some a) i ;; del p))
    (fun _ G => G = [(a, mkB Many (Cells (cells (es1 ++ es2))))]).
Proof.
  intros U E a es2. revert E. induction es2 as [ | e es2 IH]; intros E es1 C; cbn [length h_loop].
  - eapply tri_ret; [ | reflexivity ]. unfold felems; cbn [map concat]. perm.
  - inversion C; subst. apply tri_assoc.
    eapply tri_seq; [ apply (tri_cell _ _ a (cells (es1 ++ e :: es2)) (length es1) (Some (e_at e)) (nth_cells _ _ _)) | perm | ].
    intros x G (-> & ->).
    change (felems (e :: es2)) with (felem e ++ felems es2).
    eapply tri_seq; [ apply (tri_elem_del _ _ e H1) | perm | ]. intros u0 G ->.
    specialize (IH (fun _ => False) (es1 ++ [e]) H2). rewrite <- app_assoc, app_length in IH.
    cbn [app length] in IH. rewrite Nat.add_1_r in IH.
    eapply tri_seq; [ exact IH | perm | ]. intros l G ->.
    eapply tri_ret; [ | reflexivity ]. perm.
Qed.

Lemma tri_free : forall U E p n g, carr p n g -> g <> None ->
  tri U E (farr g) (free p n) (fun _ G => G = []).
Proof.
  intros U E p n [[a es] | ] C N; [ | congruence ]. destruct C as (-> & -> & F). unfold free.
  eapply tri_seq; [ apply (loop_del U _ a es [] F) | cbn [app farr]; perm | ]. intros l G ->.
  eapply tri_last; [ apply (tri_del _ _ Many a (Cells (cells es))) | cbn [app]; perm | ].
  intros _ G ->. exists []. split; [ perm | reflexivity ].
Qed.

Lemma tri_drop : forall U E p n g, carr p n g ->
  tri U E (farr g) (drop p n) (fun _ G => G = []).
Proof.
  intros U E p n g C. destruct g as [[a es] | ].
  - assert (p = Some a) by now destruct C. subst. unfold drop. apply tri_free; [ exact C | discriminate ].
  - cbn in C. subst. cbn. eapply tri_ret; [ perm | reflexivity ].
Qed.

Lemma loop_clone : forall U E a es2 es1, Forall celem es2 -> Forall wh (map e_val es2) \/ nulls U ->
  tri U E ((a, mkB Many (Cells (cells (es1 ++ es2)))) :: felems es2)
    (h_loop (length es2) (length es1) (fun i => p <~ cell (Some a) i ;; o <~ read p ;; mk (copy o)))
    (fun l G => exists es, l = cells es /\ map e_val es = map e_val es2 /\ Forall celem es /\
       Forall wh (map e_val es2) /\
       G = (a, mkB Many (Cells (cells (es1 ++ es2)))) :: felems es2 ++ felems es).
Proof.
  intros U E a es2. revert E. induction es2 as [ | e es2 IH]; intros E es1 C W; cbn [length h_loop].
  - eapply tri_ret; [ | exists []; repeat split; cbn; constructor ]. unfold felems; cbn [map concat]. perm.
  - inversion C; subst. apply tri_assoc.
    eapply tri_seq; [ apply (tri_cell _ _ a (cells (es1 ++ e :: es2)) (length es1) (Some (e_at e)) (nth_cells _ _ _)) | perm | ].
    intros x G (-> & ->).
    change (felems (e :: es2)) with (felem e ++ felems es2).
    apply tri_assoc. unfold felem at 1.
    eapply tri_seq; [ apply (read_spec _ _ (e_at e) (e_obj e)) | perm | ]. intros x G (-> & ->).
    eapply tri_seq; [ apply (tri_mk _ _ (e_obj e) (e_val e) H1) | perm | ].
    { destruct W as [W | W]; [ left; now inversion W | now right ]. }
    intros p G (e' & -> & C' & V' & W' & ->).
    specialize (IH (fun _ => False) (es1 ++ [e]) H2). rewrite <- app_assoc, app_length in IH.
    cbn [app length] in IH. rewrite Nat.add_1_r in IH.
    eapply tri_seq; [ apply IH | perm | ].
    { destruct W as [W | W]; [ left; now inversion W | now right ]. }
    intros l G (es & -> & Vs & Cs & Ws & ->).
    eapply tri_ret; [ | exists (e' :: es); repeat split ].
    + change (felems (e' :: es)) with (felem e' ++ felems es).
      change (felems (e :: es2)) with (felem e ++ felems es2).
      change (felem e) with ((e_at e, mkB One (inj (e_obj e))) :: fo (e_obj e) (e_val e)). perm.
    + cbn. now rewrite V', Vs.
    + now constructor.
    + cbn. constructor; assumption.
Qed.

Lemma tri_clone : forall U E p n g, carr p n g ->
  ((n = 0 \/ g <> None) /\ Forall wh (gvals g)) \/ nulls U ->
  tri U E (farr g) (clone p n) (fun p' G => exists g', carr p' n g' /\ (n = 0 \/ g <> None) /\
     gvals g' = gvals g /\ Forall wh (gvals g) /\ (n = 0 -> g' = None) /\ (n <> 0 -> g' <> None) /\
     G = farr g ++ farr g').
Proof.
  intros U E p n g C W. unfold clone. destruct n as [ | n].
  - eapply tri_ret; [ | exists None; repeat split; auto ].
    + cbn. perm.
    + destruct g as [[a [ | e es]] | ]; [ reflexivity | | reflexivity ]. destruct C as (_ & L & _). discriminate.
    + destruct g as [[a [ | e es]] | ]; [ constructor | | constructor ]. destruct C as (_ & L & _). discriminate.
  - destruct g as [[a es] | ].
    + destruct C as (-> & L & F). unfold new_cells. rewrite L.
      eapply tri_seq; [ apply (tri_new _ _ Many) | perm | ]. intros b G (a' & -> & ->).
      eapply tri_seq; [ apply (loop_clone U _ a es [] F); cbn in W; tauto | cbn [app farr]; perm | ].
      intros l G (es' & -> & Vs & Cs & Ws & ->).
      eapply tri_seq; [ apply (tri_put _ _ PArray a' (mkB Many (Cells (repeat None (length es)))) (Cells (cells es'))) | cbn [app]; perm | ].
      intros _ G ->. cbn [b_alloc].
      eapply tri_ret; [ | exists (Some (a', es')); repeat split; auto ].
      * cbn [farr app]. perm.
      * rewrite <- (map_length e_val es'), Vs. symmetry. apply map_length.
      * right; discriminate.
      * intro Z. lia.
      * discriminate.
    + cbn in C. subst p. destruct W as [([W | W] & _) | W]; [ lia | congruence | ].
      unfold new_cells. eapply tri_seq; [ apply (tri_new _ _ Many) | perm | ]. intros b G (a' & -> & ->).
      intros h R S. cbn. apply W.
Qed.

Lemma tri_replace : forall U E p n g q k g2, carr p n g -> carr q k g2 -> (k = 0 -> n = 0) ->
  ((n = 0 \/ g <> None) /\ (k = 0 \/ g2 <> None) /\ Forall wh (gvals g2)) \/ nulls U ->
  tri U E (farr g ++ farr g2) (replace p n q k)
    (fun p' G => exists g' L, carr p' k g' /\ gvals g' = gvals g2 /\ (k = 0 \/ g2 <> None) /\ (k <> 0 -> g' <> None) /\
       (k = 0 -> g' = g) /\ Forall wh (gvals g2) /\
       (n <> 0 \/ p = None \/ k = 0 -> L = []) /\ G = farr g' ++ farr g2 ++ L).
Proof.
  intros U E p n g q k g2 C1 C2 Z W. unfold replace.
  assert (K0 : k = 0 -> gvals g2 = []).
  { intros ->. destruct g2 as [[a [ | e es]] | ]; [ reflexivity | | reflexivity ]. destruct C2 as (_ & L & _). discriminate. }
  destruct n as [ | n].
  - apply tri_ret_bind. destruct k as [ | k].
    + eapply tri_ret with (F' := farr g ++ farr g2 ++ []); [ perm | ]. exists g, []. repeat split; auto.
      * rewrite (K0 eq_refl). destruct g as [[a [ | e es]] | ]; [ reflexivity | | reflexivity ].
        destruct C1 as (_ & L & _). discriminate.
      * rewrite (K0 eq_refl). constructor.
    + eapply tri_last; [ apply (tri_clone U _ q (S k) g2 C2) | perm | ].
      { destruct W as [(_ & A & B) | W]; [ now left; split | now right ]. }
      intros p' G (g' & C' & G2 & Vs & Ws & N1 & N2 & ->).
      exists (farr g' ++ farr g2 ++ farr g). split; [ perm | ].
      exists g', (farr g). repeat split; auto.
      * discriminate.
      * intros [? | [-> | ?]]; [ congruence | | discriminate ].
        destruct g as [[a es] | ]; [ destruct C1; discriminate | reflexivity ].
  - destruct k as [ | k]; [ specialize (Z eq_refl); discriminate | ].
    destruct g as [[a es] | ].
    + eapply tri_seq; [ apply (tri_free U _ p (S n) (Some (a, es)) C1); discriminate | perm | ].
      intros _ G ->.
      eapply tri_last; [ apply (tri_clone U _ q (S k) g2 C2) | perm | ].
      { destruct W as [(_ & A & B) | W]; [ now left; split | now right ]. }
      intros p' G (g' & C' & G2 & Vs & Ws & N1 & N2 & ->).
      exists (farr g' ++ farr g2 ++ []). split; [ perm | ].
      exists g', []. repeat split; auto. discriminate.
    + cbn in C1. subst p. destruct W as [([W | W] & _) | W]; [ discriminate | congruence | ].
      unfold free. intros h R S. cbn. apply W.
Qed.

(** Building an array from objects of the caller. *)
Lemma loop_build : forall U E P (l2 l1 : list T),
  Forall (fun o => exists v X, co o v /\ Permutation P (fo o v ++ X)) l2 -> nulls U ->
  tri U E P
    (h_loop (length l2) (length l1) (fun i => match nth_error (l1 ++ l2) i with
       Some x => mk (copy x) | None => hundef UB_UseAfterFree end))
    (fun l G => exists es, l = cells es /\ length es = length l2 /\ Forall celem es /\
       Forall2 (fun o v => co o v /\ exists X, Permutation P (fo o v ++ X)) l2 (map e_val es) /\
       G = P ++ felems es).
Proof.
  intros U E P l2. revert E. induction l2 as [ | o l2 IH]; intros E l1 A N; cbn [length h_loop].
  - eapply tri_ret; [ | exists []; repeat split; cbn; constructor ]. unfold felems; cbn [map concat]. perm.
  - inversion A; subst. destruct H1 as (v & X & Co & Pm).
    rewrite nth_error_app2 by lia. rewrite Nat.sub_diag. cbn [nth_error].
    eapply tri_seq; [ apply (tri_mk _ _ o v Co (or_intror N)) | exact Pm | ].
    intros p G (e & -> & Ce & Ve & We & ->).
    specialize (IH (fun _ => False) (l1 ++ [o]) H2 N). rewrite <- app_assoc, app_length in IH.
    cbn [app length] in IH. rewrite Nat.add_1_r in IH.
    eapply tri_seq with (F := P) (X := felem e); [ exact IH | | ].
    { transitivity ((fo o v ++ X) ++ felem e); [ perm | ]. apply Permutation_app_tail. now symmetry. }
    intros l G (es & -> & Ln & Cs & Vs & ->).
    eapply tri_ret; [ | exists (e :: es); repeat split ].
    + change (felems (e :: es)) with (felem e ++ felems es). perm.
    + cbn. now rewrite Ln.
    + now constructor.
    + cbn. constructor; [ | exact Vs ]. rewrite Ve. split; [ exact Co | now exists X ].
Qed.

Lemma tri_build : forall U E P a,
  (forall o, match a with AArr l => In o l | ANull _ => False end -> exists v X, co o v /\ Permutation P (fo o v ++ X)) ->
  nulls U ->
  tri U E P (arr_build (fun o => mk (copy o)) a)
    (fun p G => exists g, carr p (arr_count a) g /\ G = P ++ farr g /\
       match a with
       | ANull _ => g = None
       | AArr l => g <> None /\ Forall2 (fun o v => co o v /\ exists X, Permutation P (fo o v ++ X)) l (gvals g)
       end).
Proof.
  intros U E P a A N. unfold arr_build. destruct a as [n | l].
  - eapply tri_ret; [ | exists None; repeat split ]. cbn. perm.
  - unfold new_cells. eapply tri_seq; [ apply (tri_new _ _ Many) | perm | ]. intros b G (a' & -> & ->).
    eapply tri_seq; [ apply (loop_build U _ P l []) | cbn [app]; perm | ].
    { apply Forall_forall. exact A. }
    { exact N. }
    intros ps G (es & -> & Ln & Cs & Vs & ->).
    eapply tri_seq; [ apply (tri_put _ _ PArray a' (mkB Many (Cells (repeat None (length l)))) (Cells (cells es))) | cbn [app]; perm | ].
    intros _ G ->. cbn [b_alloc].
    eapply tri_ret; [ | exists (Some (a', es)); repeat split; auto ].
    + cbn [farr app]. perm.
    + discriminate.
Qed.

(** Reading all elements. *)
Definition gview (g : garr) : option (list V) :=
  match g with None => None | Some (_, es) => Some (map e_val es) end.

Lemma loop_show : forall (show : T -> H V),
  (forall U E o v, co o v -> tri U E (fo o v) (show o) (fun x G => x = v /\ G = fo o v)) ->
  forall U E a es2 es1, Forall celem es2 ->
  tri U E ((a, mkB Many (Cells (cells (es1 ++ es2)))) :: felems es2)
    (h_loop (length es2) (length es1) (fun i => p <~ cell (Some a) i ;; o <~ read p ;; show o))
    (fun l G => l = map e_val es2 /\ G = (a, mkB Many (Cells (cells (es1 ++ es2)))) :: felems es2).
Proof.
  intros show Sh U E a es2. revert E. induction es2 as [ | e es2 IH]; intros E es1 C; cbn [length h_loop].
  - eapply tri_ret; [ | split; reflexivity ]. perm.
  - inversion C; subst. apply tri_assoc.
    eapply tri_seq; [ apply (tri_cell _ _ a (cells (es1 ++ e :: es2)) (length es1) (Some (e_at e)) (nth_cells _ _ _)) | perm | ].
    intros x G (-> & ->).
    change (felems (e :: es2)) with (felem e ++ felems es2).
    apply tri_assoc. unfold felem at 1.
    eapply tri_seq; [ apply (read_spec _ _ (e_at e) (e_obj e)) | perm | ]. intros x G (-> & ->).
    eapply tri_seq; [ apply (Sh _ _ (e_obj e) (e_val e) H1) | perm | ]. intros x G (-> & ->).
    specialize (IH (fun _ => False) (es1 ++ [e]) H2). rewrite <- app_assoc, app_length in IH.
    cbn [app length] in IH. rewrite Nat.add_1_r in IH.
    eapply tri_seq; [ apply IH | perm | ]. intros l G (-> & ->).
    eapply tri_ret; [ | split; reflexivity ].
    change (felems (e :: es2)) with (felem e ++ felems es2).
    change (felem e) with ((e_at e, mkB One (inj (e_obj e))) :: fo (e_obj e) (e_val e)). perm.
Qed.

Lemma tri_show : forall (show : T -> H V),
  (forall U E o v, co o v -> tri U E (fo o v) (show o) (fun x G => x = v /\ G = fo o v)) ->
  forall U E p n g, carr p n g ->
  tri U E (farr g)
    (match p with
     | None => hret None
     | Some _ => l <~ h_loop n 0 (fun i => q <~ cell p i ;; o <~ read q ;; show o) ;; hret (Some l)
     end)
    (fun x G => x = gview g /\ G = farr g).
Proof.
  intros show Sh U E p n [[a es] | ] C.
  - destruct C as (-> & -> & F).
    eapply tri_seq; [ apply (loop_show show Sh U _ a es [] F) | cbn [app farr]; perm | ].
    intros l G (-> & ->). eapply tri_ret; [ | split; reflexivity ]. cbn [app farr]. perm.
  - cbn in C. subst. eapply tri_ret; [ perm | now split ].
Qed.

End Arrays.
