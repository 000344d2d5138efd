(** A server that agrees with everything, and the dialogue expected with it. *)

From Coq Require Import Ascii String List NArith ZArith Bool.
From Verif Require Import Base ModelAddress ModelAttachment ModelMessage ModelState ModelReply ModelUtil SpecText SpecReply SpecMime SpecDialogue SpecAuth.
Import ListNotations.

(** A reply with this code, which arrives in one piece. *)
Definition positive (code : string) (r : str) : Prop :=
  starts_with (B code) r /\ no_nul r /\ (3 < length r)%nat /\ (length r < 1024)%nat.
(** Replies as they arrive: in clear each is followed by a pause, over TLS each
    is delivered by one read. *)
Definition in_clear (rs : list str) : list recv_res := flat_map (fun r => [RData r; RErr 11]) rs.
Definition over_tls (rs : list str) : list recv_res := map RData rs.
Definition arrives (tls : bool) (rs : list str) : list recv_res := if tls then over_tls rs else in_clear rs.

(** ** The connection *)

(** The complete answer to EHLO. *)
Definition complete (r : str) : Prop :=
  positive "250" r /\ exists before last, r = before ++ last ++ CRLF /\ (before = [] \/ exists b, before = b ++ CRLF) /\
    single_line last /\ starts_with (B "250 ") last.
Definition offers_tls (r : str) : Prop := exists a b, r = a ++ B "250-STARTTLS" ++ b.
(** The last byte of a text received over TLS is lost. *)
Definition visible (tls : bool) (r : str) : str := if tls then removelast r else r.
(** [k] is the preferred mechanism among those announced in [r], which is more
    than one line. *)
Definition preferred (tls : bool) (r : str) (cr : credential) (k : mechanism) : Prop :=
  ~ single_line (visible tls r) /\ exists line, announced (visible tls r) line /\ compatible (cr_method cr) k /\ is_word (keyword k) line /\
    forall k', before k' k -> compatible (cr_method cr) k' -> ~ is_word (keyword k') line.

(** What the client has to say, and the code of the answer. *)
Definition turn := ((str -> Prop) * string)%type.
Definition auth_steps (k : mechanism) (user pass : str) : list turn :=
  match k with
  | Plain => [(base64_line (B "AUTH PLAIN ") ([NUL] ++ user ++ [NUL] ++ pass), "235"%string)]
  | Login => [(eq (B "AUTH LOGIN" ++ CRLF), "334"%string); (base64_line [] user, "334"%string); (base64_line [] pass, "235"%string)]
  | Xoauth2 =>
      [(base64_line (B "AUTH XOAUTH2 ") (B "user=" ++ user ++ [SOH_char] ++ B "auth=Bearer " ++ pass ++ [SOH_char; SOH_char]), "235"%string)]
  end.
Definition login_steps (c : client) (tls : bool) (r : str) (l : list turn) : Prop :=
  match c_cred c with
  | None => l = []
  | Some cr => exists k, preferred tls r cr k /\ l = auth_steps k (cr_user cr) (cr_pass cr)
  end.
Definition answers (l : list turn) (rs : list str) : Prop := Forall2 (fun s r => positive (snd s) r) l rs.

(** The connections: [session c tls clear secure l] says that the replies
    [clear] (after the greeting), then [secure] over TLS, agree with the client
    [c], and that the lines and replies are those of [l]. *)
Inductive session (c : client) : bool -> list recv_res -> list str -> list ((str -> Prop) * str) -> Prop :=
| in_plain : forall g r steps rs, c_kind c = KPlain -> positive "220" g -> complete r -> login_steps c false r steps -> answers steps rs ->
    session c false (RData g :: in_clear (r :: rs)) [] ((eq EHLO_line, r) :: combine (map fst steps) rs)
| without_tls : forall g r, c_kind c = KOpp -> c_bio c = None -> positive "220" g -> complete r -> Forall ascii7 r -> ~ offers_tls r ->
    session c false (RData g :: in_clear [r]) [] [(eq EHLO_line, r)]
| with_tls : forall g r r' r2 steps rs, c_kind c = KOpp -> c_bio c = None -> c_rawptr c = false -> positive "220" g -> complete r -> Forall ascii7 r ->
    offers_tls r -> positive "220" r' -> complete r2 -> login_steps c true r2 steps -> answers steps rs ->
    session c true (RData g :: in_clear [r; r']) (r2 :: rs)
      ((eq EHLO_line, r) :: (eq (B "STARTTLS" ++ CRLF), r') :: (eq EHLO_line, r2) :: combine (map fst steps) rs)
| forced : forall g r steps rs, c_kind c = KForced -> c_rawptr c = false -> positive "220" g -> complete r -> login_steps c true r steps -> answers steps rs ->
    session c true [] (g :: r :: rs) ((eq EHLO_line, r) :: combine (map fst steps) rs).
(** The exchanges took place as listed. *)
Definition as_listed (l : list (str * str)) (s : list ((str -> Prop) * str)) : Prop := Forall2 (fun x y => fst y (fst x) /\ snd x = snd y) l s.

(** ** A server that announces no usable mechanism *)

(** The answer to EHLO announces mechanisms, none of which the credential
    allows. *)
Definition unusable (tls : bool) (r : str) (cr : credential) : Prop :=
  ~ single_line (visible tls r) /\ exists line, announced (visible tls r) line /\
    forall k, compatible (cr_method cr) k -> ~ is_word (keyword k) line.
(** The connections up to the answer in question, and what was said. *)
Inductive session_without (c : client) (cr : credential) : bool -> list recv_res -> list str -> list (str * str) -> Prop :=
| none_plain : forall g r, c_kind c = KPlain -> positive "220" g -> complete r -> unusable false r cr ->
    session_without c cr false (RData g :: in_clear [r]) [] [(EHLO_line, r)]
| none_tls : forall g r r' r2, c_kind c = KOpp -> c_bio c = None -> c_rawptr c = false -> positive "220" g -> complete r -> Forall ascii7 r ->
    offers_tls r -> positive "220" r' -> complete r2 -> unusable true r2 cr ->
    session_without c cr true (RData g :: in_clear [r; r']) [r2] [(EHLO_line, r); (B "STARTTLS" ++ CRLF, r'); (EHLO_line, r2)]
| none_forced : forall g r, c_kind c = KForced -> c_rawptr c = false -> positive "220" g -> complete r -> unusable true r cr ->
    session_without c cr true [] [g; r] [(EHLO_line, r)].

(** ** The mail *)

(** The replies to MAIL, to each RCPT, to DATA and to the end of the data. *)
Definition mail_answers (m : message) (rs : list str) : Prop :=
  exists rf rr rd re, rs = [rf] ++ rr ++ [rd; re] /\ positive "250" rf /\ Forall (positive "250") rr /\ length rr = length (recipients m) /\
    positive "354" rd /\ positive "250" re.
Definition mail_commands (m : message) : list str :=
  [hd [] (sender_lines (m_from m))] ++ map rcpt_line (recipients m) ++ [DATA_line].
Definition mail_dialogue (fs : filesystem) (m : message) (batch : bool) (rs : list str) (l : list (str * str)) : Prop :=
  exists lines, concat lines = mail_text fs m /\
    l = combine (mail_commands m) rs ++ silent lines ++ [(END_line, last rs [])] ++ (if batch then [] else [(QUIT_line, [])]).

(** ** The operating system and the TLS library *)

(** Every call succeeds at once. *)
Record reliable (e : env) : Prop := mkReliable {
  rl_send : e_send e = []; rl_puts : e_bputs e = []; rl_fcntl : e_fcntl e = [];
  rl_host : e_host e = []; rl_conn : e_conn e = [];
  rl_sock : exists fd more, e_sock e = SkFd fd :: more }.
(** The TLS negotiation succeeds with an acceptable certificate. *)
Definition negotiates (c : client) (e : env) : Prop :=
  exists t more, e_tls e = t :: more /\ t_ctx t = true /\ t_bio t = true /\ t_paths t = true /\ t_connect t = true /\ t_handshake t = true /\ t_cert t = true /\
    (t_verify t = 0%Z \/ (t_verify t = 18%Z /\ c_selfsigned c = true)).
(** The server has a name, which with the port fits in 1024 bytes. *)
Definition named (c : client) : Prop :=
  exists name, c_server c = Some name /\ (slen name + 1 + slen (dec_of_N (c_port c)) + 1 <= 1024)%N.
(** The connection in use when the mail is sent. *)
Definition carries (tls : bool) (c : client) : Prop :=
  if tls then c_kind c <> KPlain /\ c_rawptr c = false /\ exists b, c_bio c = Some b else c_kind c = KPlain \/ c_rawptr c = true.
