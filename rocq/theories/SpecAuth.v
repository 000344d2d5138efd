(** Authentication: what the server offers and what the client sends. *)

From Coq Require Import Ascii String List NArith ZArith Bool.
From Verif Require Import Base ModelMessage ModelState ModelWorld SpecReply SpecBase64 SpecDialogue SpecDead.
Import ListNotations.

Inductive mechanism := Plain | Login | Xoauth2.
Definition keyword (k : mechanism) : str :=
  match k with Plain => B "PLAIN" | Login => B "LOGIN" | Xoauth2 => B "XOAUTH2" end.
(** The text that begins an authentication with [k]. *)
Definition opening (k : mechanism) : str :=
  match k with Plain => B "AUTH PLAIN " | Login => B "AUTH LOGIN" ++ CRLF | Xoauth2 => B "AUTH XOAUTH2 " end.
Definition begins_auth (k : mechanism) (d : str) : Prop := starts_with (opening k) d.

(** The method recommended in the credential allows [k]. *)
Definition compatible (r : authmethod) (k : mechanism) : Prop :=
  r = kImplicit \/ r = match k with Plain => kPlain | Login => kLogin | Xoauth2 => kXOauth2 end.
(** PLAIN is tried before LOGIN and LOGIN before XOAUTH2. *)
Definition rank (k : mechanism) : nat := match k with Plain => 0 | Login => 1 | Xoauth2 => 2 end.
Definition before (a b : mechanism) : Prop := (rank a < rank b)%nat.

(** How the client reads the answer to EHLO: in pieces.  A piece is what is
    received from the socket between two changes of its blocking mode, or, over
    TLS, what one read delivers without its last byte.  The pieces are joined by
    a line feed. *)
Definition flush (cur : option str) : list str := match cur with Some p => [p] | None => [] end.
Definition so_far (cur : option str) : str := match cur with Some p => p | None => [] end.
Fixpoint pieces (cur : option str) (t : list event) : list str :=
  match t with
  | [] => flush cur
  | EvFcntl _ _ _ :: r => flush cur ++ pieces None r
  | EvRecv _ (RData (c :: d)) :: r => pieces (Some (so_far cur ++ cstr (firstn 1024 (c :: d)))) r
  | EvRead _ (RData (c :: d)) :: r => flush cur ++ cstr (removelast (firstn 1024 (c :: d))) :: pieces None r
  | _ :: r => pieces cur r
  end.
Fixpoint joined (l : list str) : str :=
  match l with
  | [] => []
  | [p] => p
  | p :: r => p ++ [LF] ++ joined r
  end.
Definition seen (t : list event) : str := joined (pieces None t).

(** [line] is the first line of [text] that announces mechanisms. *)
Definition announced (text line : str) : Prop :=
  exists lines after, text = text_of lines ++ line ++ after /\ (after = [] \/ exists r, after = CRLF ++ r) /\
    single_line line /\ auth_line line /\ (forall l, In l lines -> single_line l /\ ~ auth_line l).

Definition EHLO_line : str := B "ehlo localhost" ++ CRLF.
Definition no_writes (t : list event) : Prop := forall ev, In ev t -> ~ exists d, writes d ev.
(** The last thing written in [t] is EHLO; its answer is read in [reads]. *)
Definition after_ehlo (t reads : list event) : Prop :=
  exists u e, t = u ++ e :: reads /\ writes EHLO_line e /\ no_writes reads.

(** Nothing but the connection was spoken about: no MAIL yet. *)
Definition before_mail (t : list event) : Prop := forall d, In d (written t) -> ~ mail_command d.

(** [d] is one line that is the base64 form of [s] preceded by [p]; it is at
    most about twice as long. *)
Definition base64_line (p s d : str) : Prop :=
  exists b, d = p ++ b ++ CRLF /\ mime_decode b = Some s /\ ((slen s < 49152)%N -> Forall (fun c => is_linebreak c = false) b) /\
    (slen b <= 2 * slen s + 4)%N.

(** No read delivers data that begins with white space, a sign or the digit 0:
    such a text could be taken for a reply code below 1. *)
Definition odd_start (c : ascii) : Prop :=
  In c [" "%char; "+"%char; "-"%char; "0"%char; ascii_of_nat 9; ascii_of_nat 10; ascii_of_nat 11; ascii_of_nat 12; ascii_of_nat 13].
Definition orderly (t : list event) : Prop :=
  forall ev c d, In ev t -> (exists fd, ev = EvRecv fd (RData (c :: d))) \/ (exists b, ev = EvRead b (RData (c :: d))) ->
  c <> NUL /\ ~ odd_start c.

(** The texts [w] are, as far as they go, the lines of [l] (a prefix and what
    the base64 text after it stands for) and then a MAIL command. *)
Fixpoint credential_lines (l : list (str * str)) (w : list str) : Prop :=
  match w with
  | [] => True
  | d :: w' =>
      match l with
      | [] => mail_command d
      | (p, s) :: l' => base64_line p s d /\ credential_lines l' w'
      end
  end.
Definition SOH_char : ascii := ascii_of_nat 1.
(** What each mechanism transmits: RFC 4616, the LOGIN mechanism, XOAUTH2. *)
Definition transmits (k : mechanism) (user pass : str) (d : str) (next : list str) : Prop :=
  match k with
  | Plain => credential_lines [(B "AUTH PLAIN ", [NUL] ++ user ++ [NUL] ++ pass)] (d :: next)
  | Login => d = B "AUTH LOGIN" ++ CRLF /\ credential_lines [([], user); ([], pass)] next
  | Xoauth2 =>
      credential_lines
        [(B "AUTH XOAUTH2 ", B "user=" ++ user ++ [SOH_char] ++ B "auth=Bearer " ++ pass ++ [SOH_char; SOH_char])] (d :: next)
  end.

(** Every line of the authentication was answered 334, the last one 235. *)
Definition accepted_auth (l : list (str * str)) : Prop :=
  exists k first more x, map fst l = first :: more /\ begins_auth k first /\ (length more < 3)%nat /\
    l = removelast l ++ [x] /\ Forall (answered "334") (removelast l) /\ answered "235" x.
