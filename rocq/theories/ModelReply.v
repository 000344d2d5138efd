(** Model of the functions that interpret server replies:
    src/serveroptionsanalyzer.cpp, extractReturnCode, ParseAuthenticationOptions
    and extractAuthenticationOptions of src/smtpclientbase.cpp, and
    isStartTLSSupported of src/opportunisticsecuresmtpclient.cpp. *)

From Coq Require Import Ascii String List NArith ZArith Bool.
From Verif Require Import Base ModelUtil.
Import ListNotations.

(** serveroptionsanalyzer.cpp:6-24 [containsAllOptions]. *)
Definition containsAllOptions (s : str) : bool :=
  let sane :=
    if (2 <=? length s)%nat && str_eqb (skipn (length s - 2) s) CRLF
    then firstn (length s - 2) s else s in
  let start := match rfind_sub CRLF sane with
               | None => 0%nat
               | Some n => (n + 2)%nat
               end in
  str_eqb (substr sane start 4) (B "250 ").

(** Characters [strtol] skips / accepts. *)
Definition strtol_space (c : ascii) : bool :=
  ((code c =? 32) || ((9 <=? code c) && (code c <=? 13)))%N.
Definition strtol_digit (c : ascii) : bool := ((48 <=? code c) && (code c <=? 57))%N.

Fixpoint skip_spaces (s : str) : str :=
  match s with
  | c :: r => if strtol_space c then skip_spaces r else s
  | [] => []
  end.

(** The longest prefix of digits, as a number; [None] when there is none. *)
Fixpoint read_digits (s : str) (acc : Z) : Z :=
  match s with
  | c :: r => if strtol_digit c
              then read_digits r (acc * 10 + Z.of_N (code c - 48))%Z else acc
  | [] => acc
  end.

Definition starts_with_digit (s : str) : bool :=
  match s with c :: _ => strtol_digit c | [] => false end.

(** [std::stoi]: skip white space, optional sign, digits; [None] is the
    std::invalid_argument exception.  The callers pass at most 3 characters, so
    std::out_of_range cannot occur. *)
Definition stoi (s : str) : option Z :=
  match skip_spaces s with
  | c :: r =>
      if Ascii.eqb c "-"%char then
        if starts_with_digit r then Some (- read_digits r 0)%Z else None
      else if Ascii.eqb c "+"%char then
        if starts_with_digit r then Some (read_digits r 0) else None
      else if strtol_digit c then Some (read_digits (c :: r) 0) else None
  | [] => None
  end.

(** smtpclientbase.cpp:1068-1079 [extractReturnCode]; [None] = nullptr. *)
Definition extractReturnCode (p : option str) : Z :=
  match p with
  | None => -1
  | Some s0 =>
      let s := cstr s0 in
      if (3 <=? length s)%nat then
        match stoi (firstn 3 s) with
        | Some v => v
        | None => -1
        end
      else -1
  end.

(** serverauthoptions.h:5-12. *)
Record authopts := mkAuth {
  ao_plain : bool; ao_login : bool; ao_xoauth2 : bool;
  ao_plain_clienttoken : bool; ao_oauthbearer : bool; ao_xoauth : bool }.
Definition no_auth : authopts := mkAuth false false false false false false.

(** smtpclientbase.cpp:1093-1098: split at each space. *)
Fixpoint split_spaces (cur s : str) : list str :=
  match s with
  | [] => [cur]
  | c :: r => if Ascii.eqb c " "%char then cur :: split_spaces [] r
              else split_spaces (cur ++ [c]) r
  end.

(** smtpclientbase.cpp:1100-1114: the effect of one word. *)
Definition set_option (o : authopts) (w : str) : authopts :=
  let '(mkAuth p l x pc ob xo) := o in
  if str_eqb w (B "PLAIN") then mkAuth true l x pc ob xo
  else if str_eqb w (B "LOGIN") then mkAuth p true x pc ob xo
  else if str_eqb w (B "XOAUTH2") then mkAuth p l true pc ob xo
  else if str_eqb w (B "PLAIN-CLIENTTOKEN") then mkAuth p l x true ob xo
  else if str_eqb w (B "OAUTHBEARER") then mkAuth p l x pc true xo
  else if str_eqb w (B "XOAUTH") then mkAuth p l x pc ob true
  else o.

(** smtpclientbase.cpp:1081-1118 [ParseAuthenticationOptions]. *)
Definition ParseAuthenticationOptions (line : str) : option authopts :=
  if str_eqb (firstn 8 line) (B "250-AUTH") || str_eqb (firstn 8 line) (B "250 AUTH")
  then Some (fold_left set_option (split_spaces [] line) no_auth)
  else None.

(** smtpclientbase.cpp:1128-1139: the loop over the lines.  [ret] is retVal:
    once it is set by line 1137 the loop goes on (without overwriting it by
    line 1137) until a line parsed at 1130 replaces it. The fuel bounds the
    number of lines by the length of the text. *)
Fixpoint extract_auth_loop (fuel : nat) (text : str) (ret : option authopts)
  : option authopts :=
  match fuel with
  | O => ret
  | S f =>
      match find_sub CRLF text with
      | None => ret
      | Some n =>
          match ParseAuthenticationOptions (firstn n text) with
          | Some o => Some o
          | None =>
              let rest := skipn (n + 2) text in
              let ret' := match rest, ret with
                          | _ :: _, None => ParseAuthenticationOptions rest
                          | _, _ => ret
                          end in
              extract_auth_loop f rest ret'
          end
      end
  end.

(** smtpclientbase.cpp:1120-1141 [extractAuthenticationOptions]. *)
Definition extractAuthenticationOptions (p : option str) : option authopts :=
  match p with
  | None => None
  | Some s0 => let s := cstr s0 in extract_auth_loop (S (length s)) s None
  end.

(** opportunisticsecuresmtpclient.cpp:103-114 [isStartTLSSupported]. *)
Definition isStartTLSSupported (p : option str) : outcome bool :=
  match p with
  | None => Done false
  | Some s0 =>
      let s := cstr s0 in
      match s with
      | [] => Done false
      | _ => obind (trim s) (fun t =>
             match t with
             | [] => Done false
             | _ => Done (match find_sub (B "250-STARTTLS") s with
                          | Some _ => true | None => false end)
             end)
      end
  end.
