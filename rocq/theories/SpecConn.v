(** Opening the TCP session, waiting for a reply and the meaning of a return
    code. *)

From Coq Require Import Ascii String List NArith ZArith Bool.
From Verif Require Import Base ModelUtil ModelAddress ModelAttachment ModelMessage ModelState SpecAddress SpecReply SpecErrors SpecDialogue.
Import ListNotations.
Open Scope Z_scope.

(** ** Opening the TCP session *)

(** The answer of the operating system to the [n]th call of a kind ([d] when
    the script says nothing). *)
Definition nth_answer {A} (n : nat) (script : list A) (d : A) : A := nth n script d.
Definition succeeded (r : option Z) : bool := match r with None => true | Some _ => false end.
Definition in_progress (r : option Z) : bool := match r with Some e => e =? 115 | None => false end.

(** The system calls that open a session, in the order they are made, with
    their success and the code documented for their failure
    (src/socketerrors.h). *)
Definition session_calls (e : env) : list (bool * Z) :=
  let connect := nth_answer 0 (e_conn e) None in
  [ (match nth_answer 0 (e_sock e) (SkErr 0) with SkFd _ => true | SkErr _ => false end, -1);
    (match nth_answer 0 (e_host e) (Some 4) with Some n => 0 <=? n | None => false end, -6);
    (succeeded (nth_answer 0 (e_fcntl e) None), -7);
    (succeeded (nth_answer 1 (e_fcntl e) None), -8);
    (succeeded connect || in_progress connect, -2) ] ++
  (if in_progress connect then
     [ (match nth_answer 0 (e_select e) SelReady with SelErr _ => false | _ => true end, -2);
       (match nth_answer 0 (e_select e) SelReady with SelTimeout => false | _ => true end, -3);
       (match nth_answer 0 (e_sopt e) (SoVal 0) with SoErr _ => false | _ => true end, -9);
       (match nth_answer 0 (e_sopt e) (SoVal 0) with SoVal v => v =? 0 | _ => true end, -10) ]
   else []) ++
  [ (succeeded (nth_answer 2 (e_fcntl e) None), -7);
    (succeeded (nth_answer 3 (e_fcntl e) None), -8) ].

Fixpoint first_failure (calls : list (bool * Z)) : Z :=
  match calls with
  | [] => 0
  | (true, _) :: r => first_failure r
  | (false, code) :: _ => code
  end.

(** The first two fcntl calls succeed and select is not interrupted. *)
Definition usual_calls (e : env) : Prop :=
  nth_answer 0 (e_fcntl e) None = None /\ nth_answer 1 (e_fcntl e) None = None /\
  nth_answer 0 (e_select e) SelReady <> SelErr 4.

(** ** Waiting *)

Definition slept (t : list event) : N :=
  fold_right (fun ev n => match ev with EvSleep k => k + n | _ => n end)%N 0%N t.
(** Some read of [t] delivered a byte. *)
Definition delivers (ev : event) : Prop :=
  match ev with EvRecv _ (RData (_ :: _)) | EvRead _ (RData (_ :: _)) => True | _ => False end.

(** ** Return codes *)

Definition heard (t : list event) : str := fst (dialogue t).
Definition trailing (d : str) : Prop := d = QUIT_line \/ starts_with (B "RCPT TO: <") d.
(** [r] is the code of a text received from the server, after which only RCPT
    and QUIT lines were written.  (A text that does not begin with three digits
    of which the first is not 0 is read as some number below 100.) *)
Definition refusal (r : Z) (t : list event) : Prop :=
  exists before reply after, t = before ++ reply ++ after /\ written reply = [] /\ Forall trailing (written after) /\
    ((100 <= r /\ code_digits r (heard reply)) \/
     (-99 <= r < 100 /\ heard reply <> [] /\ forall v, 100 <= v -> ~ code_digits v (heard reply))).

(** ** The time a sending operation takes *)

(** Writes, and reads that delivered something. *)
Definition active (ev : event) : bool :=
  match ev with
  | EvSend _ _ _ | EvPuts _ _ _ => true
  | EvRecv _ (RData (_ :: _)) | EvRead _ (RData (_ :: _)) => true
  | _ => false
  end.
Definition activity (t : list event) : N := N.of_nat (length (filter active t)).
