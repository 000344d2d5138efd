(** What the objects of a program hold after a history of operations: the
    classes have value semantics. *)

From Coq Require Import Ascii String List NArith ZArith Bool Arith.
From Verif Require Import Base ModelUtil ModelAddress ModelAttachment ModelMessage ModelHeap SpecHeap.
Import ListNotations.
Open Scope nat_scope.

(** The objects of a program, in the order of their creation; each is what its
    getters return. *)
Definition values := list obs.
Definition value (l : values) (i : nat) : obs := nth i l SGone.
Fixpoint changed (l : values) (i : nat) (v : obs) : values :=
  match l, i with
  | [], _ => []
  | _ :: r, O => v :: r
  | x :: r, S j => x :: changed r j v
  end.

(** The text returned by getter number [k] (the numbering of [AGetter]). *)
Definition field (v : obs) (k : nat) : option str :=
  match v, k with
  | SAddr (e, _), 0 => e | SAddr (_, n), 1 => n
  | SAtt (n, _, _), 0 => n | SAtt (_, f, _), 1 => f | SAtt (_, _, c), 2 => c
  | SCred (u, _, _), 0 => u | SCred (_, p, _), 1 => p
  | SMsg m, 0 => w_subject m | SMsg m, 1 => w_body m | SMsg m, 2 => fst (w_from m) | SMsg m, 3 => snd (w_from m)
  | SClient _ s _ _, 0 => s | SClient _ _ l _, 1 => l
  | _, _ => None
  end.
Definition text (l : values) (a : arg) : option str :=
  match a with
  | ANullptr => None
  | ACaller s => Some (cstr s)
  | AGetter i k => field (value l i) k
  end.

(** The recipients and attachments of a message, whether or not the getter
    returns a null pointer when there are none. *)
Definition message_of (m : msg_view) : msg_view :=
  mkView (w_from m) (Some (shown (w_to m))) (w_nto m) (Some (shown (w_cc m))) (w_ncc m) (Some (shown (w_bcc m))) (w_nbcc m)
    (w_subject m) (w_body m) (Some (shown (w_atts m))) (w_natts m).
Definition contents (v : obs) : obs := match v with SMsg m => SMsg (message_of m) | _ => v end.

(** Addresses and attachments given in an array. *)
Fixpoint collect {A} (f : obs -> option A) (l : list obs) : option (list A) :=
  match l with
  | [] => Some []
  | v :: r => match f v, collect f r with Some x, Some q => Some (x :: q) | _, _ => None end
  end.
Definition array {A} (f : obs -> option A) (l : values) (a : arr nat) : option (list A) := collect f (map (value l) (members a)).
Definition as_addr (v : obs) := match v with SAddr x => Some x | _ => None end.
Definition as_att (v : obs) := match v with SAtt x => Some x | _ => None end.

(** What is left in an object after its content was moved to a new object. *)
Definition left_over (v : obs) : obs :=
  match v with
  | SAddr _ => SAddr (None, None)
  | SAtt _ => SAtt (None, None, None)
  | SCred (_, _, m) => SCred (None, None, m)
  | SMsg _ => SMsg (mkView (None, None) (Some []) 0 (Some []) 0 (Some []) 0 None None (Some []) 0)
  | SClient false _ _ _ => SClient false None None None
  | SClient true _ _ c => SClient true None None c
  | SGone => SGone
  end.
(** After a move assignment a message still has its sender. *)
Definition left_over_assigned (v : obs) : obs :=
  match v with
  | SMsg m => SMsg (mkView (w_from m) (Some []) 0 (Some []) 0 (Some []) 0 None None (Some []) 0)
  | _ => left_over v
  end.

Definition same_class (v w : obs) : bool :=
  match v, w with
  | SAddr _, SAddr _ | SAtt _, SAtt _ | SCred _, SCred _ | SMsg _, SMsg _ => true
  | SClient a _ _ _, SClient b _ _ _ => Bool.eqb a b
  | _, _ => false
  end.
(** Copy assignment of [w] to [v]: a message keeps its own sender. *)
Definition assigned (v w : obs) : obs :=
  match v, w with
  | SMsg m, SMsg m2 =>
      SMsg (mkView (w_from m) (w_to m2) (w_nto m2) (w_cc m2) (w_ncc m2) (w_bcc m2) (w_nbcc m2) (w_subject m2) (w_body m2) (w_atts m2) (w_natts m2))
  | _, _ => w
  end.

(** The credential argument of setCredentials. *)
Definition given (l : values) (c : credarg) : option (option str * option str * authmethod) :=
  match c with
  | KObject i => match value l i with SCred v => Some v | _ => None end
  | KOfClient i => match value l i with SClient _ _ _ v => v | _ => None end
  end.

(** The clients of the string API make a Credential of the two texts first. *)
Definition accepted (string_api : bool) (v : option str * option str * authmethod) : bool :=
  if string_api then
    match v with
    | (Some u, Some w, _) => match credential_new (Some u) (Some w) with Done _ => true | _ => false end
    | _ => false
    end
  else true.

(** A new object, or none when the constructor refuses its arguments. *)
Definition built {A} (f : A -> obs) (o : outcome A) : obs := match o with Done a => f a | _ => SGone end.
Definition address_value (a : address) : obs := SAddr (Some (a_email a), Some (a_name a)).
Definition attachment_value (a : attachment) : obs := SAtt (Some (at_name a), Some (at_file a), Some (at_cid a)).
Definition credential_value (c : credential) : obs := SCred (Some (cr_user c), Some (cr_pass c), cr_method c).
(** A name that is neither null nor blank. *)
Definition usable (p : option str) : bool := match null_or_blank p with Done b => negb b | _ => false end.

(** The values after an operation. *)
Definition after (l : values) (o : hop) : values :=
  match o with
  | VAddr e n => l ++ [built address_value (address_new (text l e) (text l n))]
  | VAtt f n c => l ++ [built attachment_value (attachment_new (text l f) (text l n) (text l c))]
  | VCred u p => l ++ [built credential_value (credential_new (text l u) (text l p))]
  | VCred3 u p m => l ++ [built credential_value (credential_new3 (text l u) (text l p) m)]
  | VMsg f t c d s b a =>
      match as_addr (value l f), array as_addr l t, array as_addr l c, array as_addr l d, array as_att l a with
      | Some f', Some t', Some c', Some d', Some a' =>
          l ++ [SMsg (mkView f' (Some t') (arr_count t) (Some c') (arr_count c) (Some d') (arr_count d) (text l s) (text l b) (Some a') (arr_count a))]
      | _, _, _, _, _ => l
      end
  | VBase s => l ++ [if usable (text l s) then SClient false (text l s) None None else SGone]
  | VCpp s => l ++ [if usable (text l s) then SClient true (text l s) None None else SGone]
  | VCopy i => match value l i with SGone => l | v => l ++ [v] end
  | VMove i => match value l i with SGone => l | v => changed l i (left_over v) ++ [v] end
  | VAssign i j =>
      if Nat.eqb i j then l
      else if same_class (value l i) (value l j) then changed l i (assigned (value l i) (value l j)) else l
  | VMoveAssign i j =>
      if Nat.eqb i j then l
      else if same_class (value l i) (value l j)
      then changed (changed l i (value l j)) j (left_over_assigned (value l j)) else l
  | VSetContentId i c =>
      match value l i with SAtt (n, f, _) => changed l i (SAtt (n, f, text l c)) | _ => l end
  | VSetUsername i u =>
      match value l i with SCred (_, p, m) => if usable (text l u) then changed l i (SCred (text l u, p, m)) else l | _ => l end
  | VSetPassword i w =>
      match value l i, text l w with SCred (u, _, m), Some (_ :: _) => changed l i (SCred (u, text l w, m)) | _, _ => l end
  | VSetMethod i m => match value l i with SCred (u, p, _) => changed l i (SCred (u, p, m)) | _ => l end
  | VSetServer i s =>
      match value l i with SClient k _ g c => if usable (text l s) then changed l i (SClient k (text l s) g c) else l | _ => l end
  | VSetCredentials i c =>
      match value l i, given l c with SClient k s g _, Some v => if accepted k v then changed l i (SClient k s g (Some v)) else l | _, _ => l end
  | VTalk i t =>
      match value l i with
      | SClient k s g c => changed l i (SClient k s (match t with TStart => Some [] | TLog _ x => Some x | _ => g end) c)
      | _ => l
      end
  | VRead _ => l
  | VDestroy i => changed l i SGone
  end.
Definition values_after (l : list hop) : values := fold_left after l [].

(** The objects of [p] hold the values [l]. *)
Definition holds (p : pool) (h : heap) (l : values) : Prop :=
  Forall2 (fun o s => exists v, fst (observe o h) = Done v /\ contents v = s) p l.
