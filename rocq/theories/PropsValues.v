(** The objects of a program are values (C69).  A program is any list of
    operations ([hop]); [hexec l] runs it on an empty heap, and
    [values_after l] (SpecValues.v) says what every object should hold after
    it, without any memory. *)

From Coq Require Import Ascii String List NArith ZArith Bool Arith.
From Verif Require Import Base ModelUtil ModelBase64 ModelAddress ModelAttachment ModelMessage ModelHeap SpecHeap SpecValues
  ProofHeap9 ProofHeap10 ProofHeap11 ProofHeap12 ProofValues.
Import ListNotations.
Open Scope nat_scope.

(** C69: after any history each object shows the value the history gave it.
    Only for the histories of [careful]: the others can make objects share
    memory or use memory that was freed (C48, C49, C51, C63). *)
Theorem C69_values_partial : forall l p h, along careful l -> hexec l = (Done p, h) -> holds p h (values_after l).
Proof. exact value_semantics. Qed.
Print Assumptions C69_values_partial.

Lemma third_of_both : forall A C (P : A -> C -> Prop) a b x l l', Forall2 P (a :: b :: x :: l) l' ->
  exists o s, x = o /\ nth_error l' 2 = Some s /\ P o s.
Proof.
  intros A C P a b x l l' H. inversion H as [|? ? ? ? _ H1]; subst. inversion H1 as [|? ? ? ? _ H2]; subst.
  inversion H2 as [|? ? ? ? H3 _]; subst. eexists _, _. split; [reflexivity|]. split; [reflexivity|]. exact H3.
Qed.

(** C69 fails for the others: a client whose credential was set through another
    client that shares it shows no value at all. *)
Theorem C69_shared_credential_refuted : exists l p h, hexec l = (Done p, h) /\ ~ holds p h (values_after l).
Proof.
  exists shared_credential. do 2 eexists. split; [ vm_compute; reflexivity | ].
  intros H. apply third_of_both in H. destruct H as (o & s & E & _ & v & V & _).
  rewrite <- E in V. vm_compute in V. discriminate V.
Qed.
Print Assumptions C69_shared_credential_refuted.

(** A program with eleven objects of every class.  Its values are computed
    here by the specification alone. *)
Example C69_example : along careful tour /\
  (exists p h, hexec tour = (Done p, h)) /\
  length (values_after tour) = 11 /\
  nth 3 (values_after tour) SGone = SCred (Some (B "other"), Some (B "secret"), kLogin) /\
  nth 5 (values_after tour) SGone =
    SClient false (Some (B "Hello")) (Some (B "log")) (Some (Some (B "user"), Some (B "secret"), kLogin)) /\
  nth 8 (values_after tour) SGone =
    SClient false (Some (B "Hello")) (Some (B "log")) (Some (Some (B "user"), Some (B "secret"), kLogin)) /\
  nth 9 (values_after tour) SGone =
    SClient true (Some (B "mail.example.org")) None (Some (Some (B "user"), Some (B "secret"), kLogin)) /\
  (exists m, nth 10 (values_after tour) SGone = SMsg m /\ w_nto m = 2 /\ w_subject m = Some (B "Hello")).
Proof.
  split; [ exact tour_careful | ]. split; [ eexists; eexists; vm_compute; reflexivity | ].
  vm_compute. repeat split; try reflexivity. eexists. repeat split; reflexivity.
Qed.
