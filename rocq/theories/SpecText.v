(** Vocabulary for texts: white space, ASCII, letters. *)

From Coq Require Import Ascii String List NArith ZArith Bool.
From Verif Require Import Base ModelMessage.
Import ListNotations.

(** The white space characters of the C locale. *)
Definition ws_chars : str := [" "%char; "009"%char; "010"%char; "011"%char; "012"%char; "013"%char].
Definition is_ws (c : ascii) : Prop := In c ws_chars.
Definition ascii7 (c : ascii) : Prop := (code c < 128)%N.
(** A visible ASCII character (for [trim]). *)
Definition solid (c : ascii) : Prop := ascii7 c /\ ~ is_ws c.

(** [t] is empty or begins (resp. ends) with a character satisfying [P]. *)
Definition begins (P : ascii -> Prop) (t : str) : Prop :=
  t = [] \/ exists c r, t = c :: r /\ P c.
Definition ends (P : ascii -> Prop) (t : str) : Prop :=
  t = [] \/ exists c r, t = r ++ [c] /\ P c.

Definition upper_letters : str := B "ABCDEFGHIJKLMNOPQRSTUVWXYZ".
Definition lower_letters : str := B "abcdefghijklmnopqrstuvwxyz".

(** [c'] is [c] except that the [k]-th letter of [from] becomes the [k]-th
    letter of [to]. *)
Definition case_mapped (from to : str) (c c' : ascii) : Prop :=
  (exists k, nth_error from k = Some c /\ nth_error to k = Some c') \/
  (~ In c from /\ c' = c).

(** A text that is usable as a name: not null and with a visible character.
    ([s] is the memory behind the pointer: the text stops at a NUL.) *)
Definition usable (p : option str) : Prop :=
  exists s, p = Some s /\ exists c, In c (cstr s) /\ ~ is_ws c.
(** A usable password: not null, not empty. *)
Definition usable_password (p : option str) : Prop :=
  exists s, p = Some s /\ cstr s <> [].
(** The first and the last character that is not white space are ASCII (the
    characters in between are arbitrary). *)
Definition outer_ascii (p : option str) : Prop :=
  match p with
  | None => True
  | Some s => forall l c r, cstr s = l ++ c :: r -> Forall is_ws l \/ Forall is_ws r -> ascii7 c
  end.

(** The text behind a pointer. *)
Definition ptext (p : option str) : str := match p with Some s => cstr s | None => [] end.

(** Calls on a Credential object. *)
Inductive cred_call :=
| CallUser (p : option str) | CallPassword (p : option str) | CallMethod (m : authmethod).

(** What a caller expects: [accepts] says which calls succeed; a refused call
    throws and changes nothing. *)
Definition accepts (o : cred_call) : Prop :=
  match o with
  | CallUser p => usable p
  | CallPassword p => usable_password p
  | CallMethod _ => True
  end.

(** One call on the model: its outcome and the object afterwards. *)
Definition call (c : credential) (o : cred_call) : outcome unit * credential :=
  match o with
  | CallUser p => setUsername c p
  | CallPassword p => setPassword c p
  | CallMethod m => (Done tt, setRecommendedAuthOption c m)
  end.

(** What a Credential always is. *)
Definition valid_credential (c : credential) : Prop :=
  (exists x, In x (cr_user c) /\ ~ is_ws x) /\ cr_pass c <> [] /\
  ~ In NUL (cr_user c) /\ ~ In NUL (cr_pass c).


(** A sequence of calls on the model. *)
Fixpoint calls (c : credential) (ops : list cred_call) : list (outcome unit) * credential :=
  match ops with
  | [] => ([], c)
  | o :: r => (fst (call c o) :: fst (calls (snd (call c o)) r), snd (calls (snd (call c o)) r))
  end.

(** What a caller expects of a sequence of calls: outcomes and final values. *)
Inductive history : credential -> list cred_call -> list (outcome unit) -> credential -> Prop :=
| h_done : forall c, history c [] [] c
| h_accepted : forall c o r xs c', accepts o ->
    history (match o with
             | CallUser p => mkCred (ptext p) (cr_pass c) (cr_method c)
             | CallPassword p => mkCred (cr_user c) (ptext p) (cr_method c)
             | CallMethod m => mkCred (cr_user c) (cr_pass c) m
             end) r xs c' ->
    history c (o :: r) (Done tt :: xs) c'
| h_refused : forall c o r xs c', ~ accepts o ->
    history c r xs c' -> history c (o :: r) (Throw :: xs) c'.
