(** When a program that uses the library may run into undefined behaviour. *)

From Coq Require Import Ascii String List NArith ZArith Bool.
From Verif Require Import Base ModelAddress ModelAttachment ModelMessage ModelState ModelWorld SpecText SpecMime.
Import ListNotations.
Open Scope Z_scope.

(** The server names and port numbers a program passes to the library. *)
Definition op_server (o : op) : option str :=
  match o with ONew _ p _ | OSetServer _ p => p | _ => None end.
Definition op_port (o : op) : option N :=
  match o with ONew _ _ n | OSetPort _ n => Some n | _ => None end.

(** A port number the program set, as the 32 bit number it becomes, or the 0 of
    a client moved from. *)
Definition used_port (ops : list op) (port : N) : Prop :=
  port = 0%N \/ exists p n, In p ops /\ op_port p = Some n /\ port = u32 n.

(** A byte that is not ASCII was received from a server. *)
Definition non_ascii_received (t : list event) : Prop :=
  exists d x, ((exists fd, In (EvRecv fd (RData d)) t) \/ (exists b, In (EvRead b (RData d)) t)) /\
    In x d /\ (128 <= code x)%N.

(** What the program [ops] did, or what happened on the network ([t]), when
    undefined behaviour [u] occurs. *)
Inductive cause (ops : list op) (t : list event) : ub -> Prop :=
| cause_moved :      (* a client was moved from *)
    (exists i, In (OMove i) ops) \/ (exists i j, In (OMoveAssign i j) ops) ->
    cause ops t (UB_NullDeref PServer)
| cause_auth :       (* credentials were set *)
    (exists i cr, In (OSetCred i cr) ops) -> cause ops t (UB_NullDeref PAuth)
| cause_array :      (* a message with a null array and a positive count *)
    (exists i m, In (OSend i m) ops /\ ~ message_ok m) -> cause ops t (UB_NullDeref PArray)
| cause_recv :       (* recv() filled its 1024 byte buffer *)
    (exists fd d, In (EvRecv fd (RData d)) t /\ (1024 <= length d)%nat) -> cause ops t (UB_BufferOverflow BufRecv)
| cause_host :       (* the name just resolved (to something longer than an IPv4 address) *)
    (exists t0 host, t = t0 ++ [EvResolve host true]) -> cause ops t (UB_BufferOverflow BufHost)
| cause_endpoint :   (* "server:port" does not fit in 1024 bytes *)
    (exists o s port, In o ops /\ op_server o = Some s /\ used_port ops port /\
       (1024 < slen (cstr s) + 1 + slen (dec_of_N port) + 1)%N) ->
    cause ops t (UB_BufferOverflow BufEndpoint)
| cause_fd :         (* a descriptor too large for select() *)
    (exists n, In (EvSocket (SkFd n)) t /\ (1024 <= n)%N) -> cause ops t UB_FdSet
| cause_isspace :    (* a non-ASCII byte in a reply or in a server name *)
    non_ascii_received t \/ (exists o s, In o ops /\ op_server o = Some s /\ ~ Forall ascii7 (cstr s)) ->
    cause ops t UB_IsspaceNegative.

(** ** The communication log *)

(** One entry: a line break, the prefix, a colon and the text. *)
Definition log_line (e : str * str) : str := [LF] ++ fst e ++ B ": " ++ snd e.
Definition log_text (es : list (str * str)) : str := concat (map log_line es).

(** CRLF is shown as backslash r backslash n. *)
Fixpoint show_crlf (s : str) : str :=
  match s with
  | [] => []
  | c :: r =>
      match r with
      | d :: r' => if Ascii.eqb c CR && Ascii.eqb d LF
                   then B "\r\n" ++ show_crlf r' else c :: show_crlf r
      | [] => [c]
      end
  end.
