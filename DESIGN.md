# Formal model of CPP-SMTPClient-library: design

## 1. What is being verified

The C++ sources under /repo/src. C01-C73 are about the POSIX build, C74 and
later about the `#ifdef _WIN32` branches of the clients (`ModelWin.v`). /repo is read as text only; nothing is compiled or run.

The model is written in Rocq (Coq 8.16.1), standard library only, in
`/verif/rocq/theories` (logical name `Verif`).

## 2. Architecture

| layer | files | content |
|---|---|---|
| base | `Base.v` | bytes, strings, C-string truncation, `std::string` searches |
| model | `Model*.v` | Gallina definitions that follow the C++ functions, cited by file and lines; no proofs |
| specification | `Spec*.v` | small independent definitions used in theorem statements |
| proofs | `Proof*.v` | lemmas |
| samples | `Samples.v` | concrete servers, clients and messages used by the examples |
| properties | `Props*.v` | theorems closed by `exact lemma`, examples showing that hypotheses are met, `Print Assumptions` |

### Model of effects

* Pure code (base64, trimming, address validation, MIME types, error texts,
  reply parsing, message rendering) is modelled by total functions on
  `list ascii`; undefined behaviour is a separate outcome.
* The client is a state monad with outcomes `Done`, `Throw` (C++ exception),
  `Undef` (undefined behaviour, with its kind), `Blocked` (a system call that
  never returns), `Killed` (SIGPIPE) and `Diverge` (recursion without end).
  Undefined behaviour is never assumed away.
* The environment (kernel, network, peer, TLS library, file system) is an
  arbitrary oracle: finite but arbitrarily long lists of results for the calls
  the client makes. Theorems quantify over it.
* Every externally visible effect is appended to a trace. Theorems speak about
  the trace, the return value and the observable client state.
* A program is a list of operations on any number of clients (`ModelWorld.v`).
* Ownership of heap memory (C47-C49, C51, C63-C65, C69, C99) is modelled separately
  (`ModelHeap.v`): a heap of cells that remember how they were allocated
  (`new` / `new[]`) and whether they are live. C69 relates the two models: what
  a heap object shows is the value computed by the constructors the client
  model uses (`address_new`, `attachment_new`, `credential_new`). The session
  itself (`sendMail`) runs on values, not on heap objects.

### How the status of a property is decided

`proved` means that no theorem of the property carries the suffix `_partial` or
`_refuted`. There are no exceptions to this rule.

* `_partial`: the theorem needs a hypothesis the English statement does not
  have, or concludes less. The table says what is missing.
* `_refuted`: the faithful model violates the statement; the theorem exhibits a
  concrete execution, checked by computation. Some statements in
  `properties.jsonl` mention their own exception (C03, C13, C58, C60); they are
  listed as partial because the general claim is false.

At present 41 properties are proved and 67 are partial.

Recurring hypotheses: `standard` and `orderly` restrict the first characters of
server replies (so that no reply is read as code 000 or as a negative number);
`fields_written` says that writing the To and Cc header lines did not fail (the
library ignores such a failure), `full_writes` that no write of the run is short; `careful` excludes the operations of the heap model that lead to the
memory errors of C48, C49, C51 and C63.

## 3. Properties

| id | status | modelled | method | what is proved, what is missing |
|---|---|---|---|---|
| C01 | proved | Base64::Encode | bit operations turned into div/mod, induction on 3-byte groups against a bit-level RFC 4648 specification (SpecBase64) | Full. |
| C02 | proved | Base64::Encode | as C01, exact text and length | Full. |
| C03 | partial | Base64::Encode, Decode | exact characterisation: Decode(Encode x) = x iff x has at most 49152 bytes | C03_decode_encode says exactly when it holds (at most 49152 bytes); beyond that it is false (C03_decode_encode_refuted). |
| C04 | proved | Base64::Decode | induction on the input | Full. |
| C05 | proved | StringUtils::trim* | induction on strings; isspace with a negative argument is undefined behaviour | Full. |
| C06 | proved | StringUtils::toLower/toUpper | case analysis on bytes | Full. |
| C07 | partial | MessageAddress constructor, regular expression | executable derivative matcher proved equal to an inductive regular-language semantics, then to a direct description (SpecAddress) | Acceptance is an equivalence for all texts. Missing: refusal of an address with a byte >= 128 can reach undefined behaviour instead of throwing (C07_non_ascii_refuted, C07_address_refused). Assumption: std::regex_match decides membership in the language; its stack use is not modelled. |
| C08 | proved | MessageAddress, MAIL/RCPT lines | from C07: dot classes exclude CR and LF | Full as stated: MAIL FROM in the bracketed formats (first and third) and RCPT. The second format contains the display name, which is not checked. |
| C09 | proved | operator std::string, header values | induction on the list | Full. |
| C10 | partial | Credential constructor, setters | invariant over arbitrary call histories | The validity of the stored values holds for all calls. Missing: user names whose first or last visible byte is >= 128; those, and only those, reach undefined behaviour (C10_undefined_exactly, C10_non_ascii_user_refuted). |
| C11 | partial | client constructor, setServerName | case analysis on null / blank | Missing: server names whose first or last visible byte is >= 128; those, and only those, reach undefined behaviour (C11_undefined_exactly, C11_non_ascii_name_refuted). |
| C12 | proved | Attachment::getMimeType | table specification; uniqueness of the last-dot decomposition | Full. |
| C13 | partial | Attachment::getBase64EncodedFile | via C01; 4 GiB boundary by an abstract-length argument | C13_file_complete: files below 4 GiB; C13_file_prefix: what larger files give. Unconditionally false (C13_large_file_refuted). |
| C14 | proved | errorresolver.cpp, error code headers | case analysis over all integers against an independent list of codes | Full. |
| C15 | partial | getErrorMessage_r | buffer modelled as an array of bytes; writing outside it is undefined behaviour | Missing: with maxLength = 1 the return value 0 is ambiguous (C15_zero_means_complete_refuted). Everything else holds. |
| C16 | proved | extractReturnCode | case analysis on the three characters (std::stoi modelled) | Full. |
| C17 | proved | ServerOptionsAnalyzer::containsAllOptions | last-line decomposition | Full. |
| C18 | partial | extractAuthenticationOptions, ParseAuthenticationOptions | induction on lines | For CRLF-terminated replies without NUL bytes. Missing: over TLS the client sees the reply without its last byte and can lose the last mechanism (C18_tls_last_mechanism_refuted). |
| C19 | partial | isStartTLSSupported | search lemma | Missing: STARTTLS on the last line ('250 STARTTLS') is not noticed (C19_starttls_refuted). C19_starttls_partial says exactly when it is. |
| C20 | partial | authenticateClient in the whole dialogue | inversion of every run up to the first AUTH line; independent definition of 'announced in the answer to the last EHLO' | C20_used_was_announced: only announced, compatible mechanisms are used, in the order of preference. NOTSUPPORTED: C20_not_supported_partial (returned only if none applies, no AUTH line sent; replies orderly), C20_none_supported_partial (if none applies nothing more is sent, for every segmentation of the answer and every failing call, and the code is NOTSUPPORTED unless EHLO itself failed; replies orderly) and C20_none_applies_partial (NOTSUPPORTED is indeed returned when system calls succeed). Refuted without orderly replies: C20_code_zero_refuted (a piece of the answer that begins with the code 0 makes the client send the mail unauthenticated), C20_not_supported_refuted (a greeting -84 is returned as NOTSUPPORTED). |
| C21 | proved | authenticateWithMethod* | as C20, plus C01 and the decoder of SpecBase64 | Full. |
| C22 | proved | the whole client | relational proof: two programs that differ in credentials only are simulated through the monad, for every network behaviour | Full: results, all client state except the credentials, all calls except the base64 text of authentication lines. |
| C23 | partial | secure clients | trace invariant | Missing: a client that once met a server without STARTTLS (sticky flag), for which it is false (C23_credentials_in_clear_refuted). |
| C24 | partial | opportunistic client | trace invariant | Missing: sticky flag (C24_mail_in_clear_refuted), and writes to descriptor 0 after the session was torn down. |
| C25 | partial | forced client over all histories | invariant over histories | Missing: setKeepUsingBaseSendCommands(true) (C25_base_commands_refuted); descriptor 0 after a failed write (C25_recipient_on_descriptor_0_refuted). |
| C26 | proved | startTLSNegotiation | case analysis over the results of the TLS library | Full. The host name is not part of the decision (finding). |
| C27 | partial | sendMail | inversion of successful runs | Missing: replies '000' (C27_unacknowledged_success_refuted). 'standard' means that replies start with a code 1..999. |
| C28 | partial | sendMail | inversion of runs | Missing: replies '000' (C28_refused_recipient_refuted). |
| C29 | partial | sendMail | inversion of successful runs against the inductive specification accepted_mail | C29_recipients_announced_partial: an accepted sender and one RCPT per recipient, each answered 250, before DATA. C29_dialogue_partial: the whole dialogue is that of an accepted mail, when writing the To and Cc lines did not fail. Missing: replies '000' (C29_forgotten_recipients_refuted). |
| C30 | proved | sendMail | inversion of all runs; comparison of two accepted mails | Full. C30_data_text (every run, whatever fails): what is written after DATA is a beginning of a text determined by the message without its Bcc list; C30_same_text compares any two runs, C30_accepted_same_text two accepted mails byte for byte. |
| C31 | partial | sendMail, all three clients | forward proof: for every message and every agreeing server the run exists and is the expected one | Missing: replies of 1024 bytes or more and timeout 0, for which it is false (C31_long_reply_refuted, C31_no_timeout_refuted); texts of 2^48 bytes or more; system calls must succeed (reliable). |
| C32 | proved | body pieces | induction with the code's own index arithmetic | Full. |
| C33 | partial | MIME text | independent multipart parser in SpecMime | Stated on the generated MIME text. Missing: messages without attachment (no close delimiter: C33_no_attachment_refuted), texts containing the fixed delimiter (C33_delimiter_in_text_refuted), names and content ids with line breaks. |
| C34 | partial | DATA text | independent dot-unstuffing receiver in SpecMime | Stated on the text between DATA and end of data, as an equivalence. Missing (false): lines that start with a dot (C34_transparency_refuted). |
| C35 | partial | headers | independent header parser applied to the transmitted bytes | Missing: display names and subjects with line breaks (C35_header_injection_refuted). |
| C36 | partial | sendMail return value | inversion of all runs, per stage | Missing: the undocumented value 1 (C36_undocumented_one_refuted) and codes of a wrong stage (C36_wrong_stage_refuted). |
| C37 | proved | addCommunicationLogItem over all histories | invariant: recorded size <= allocation, for copies and moves too; the text of every log fits its allocation (C37_log_fits) | Full: no overrun, every append adds exactly its entry unless it throws (std::bad_alloc), the entries of a mail are given by C68_transcript, and other operations only carry logs along. |
| C38 | partial | recv loops | induction on the list of receive results | Missing: a block of 1024 or more bytes (C38_receive_buffer_refuted); it is the only cause. |
| C39 | partial | waiting loops | induction on the list of receive results | Missing: timeout 0 behaves like 1 in clear; the greeting is read with a blocking socket (C39_blocking_greeting_refuted). |
| C40 | partial | sendMail, destructor | trace lemmas | Missing: '000' replies and failed writes of To/Cc lines, for which it is false (C40_no_quit_refuted, C40_batch_closed_refuted). |
| C41 | proved | all client histories | ownership invariant over histories | Full, given that the operating system never returns a descriptor that is still open (fresh); descriptor 0 stands for no socket. |
| C42 | partial | all client histories | ownership invariant over histories | Missing: a second attempt after a failed one, and assignment to a connected client, lose a descriptor (C42_*_refuted); descriptor 0 is never closed. |
| C43 | partial | sendMail, destructor | trace invariant 'silent after close' | Missing: several recipients, To/Cc lines (C43_*_refuted): the client then writes to descriptor 0. |
| C44 | partial | cleanup | well-founded measure on failing writes; the fuel of the model is shown irrelevant (C44_no_depth_suffices) | Missing: two situations in which cleanup recurses for ever (C44_released_refuted, C44_greeting_000_refuted). |
| C45 | partial | two consecutive sendMail calls | protocol state of the dialogue (SpecAgain) | Missing: a refused recipient or DATA, where no RSET is sent (C45_refused_recipient_refuted); replies that are not standard. |
| C46 | partial | copy/move of clients | case analysis | Missing: copying a client that was moved from (C46_moved_from_refuted). |
| C47 | partial | Message copy/move, heap model | separation-style triples with values | Missing: copy assignment keeps the old sender (C47_sender_refuted). |
| C48 | partial | value classes, heap model | separation-style invariant over histories | Missing: setContentId leaks (C48_setContentId_refuted); setUsername(getUsername()) (C48_setUsername_refuted). |
| C49 | partial | Message, heap model | separation-style invariant over histories | Missing: assignment that removes recipients, null subject or body (C49_*_refuted). |
| C50 | partial | cpp wrappers | program equivalence with the C API | Missing: cpp::SmtpClient drops the recommended method (C50_recommended_method_refuted). |
| C51 | partial | cpp clients, heap model | separation-style invariant with shared credential | Missing: setCredentials on a client sharing its credential with a copy (C51_*_refuted). |
| C52 | proved | sys_connect | trace lemma | The exact port below 65536, the port modulo 65536 otherwise, as stated. |
| C53 | partial | initializeSession | case analysis over system-call oracles | Missing: fcntl failures (C53_fcntl_refuted, C53_fcntl_ignored_refuted) and EINTR (C53_interrupted_refuted). |
| C54 | partial | authenticateClient | refutation, and characterisation of when it happens | False: C54_no_authentication_offered_refuted. The partial theorem says that the crash happens only in that situation. |
| C55 | partial | MAIL FROM loop | inversion of runs | Missing: replies '000' (C55_sender_not_accepted_refuted). |
| C56 | partial | attachments in sendMail | two file systems compared | False: C56_unreadable_attachment_refuted. The partial theorem says what is sent instead. |
| C57 | partial | writes | trace lemma | Missing: short writes (C57_short_write_refuted); replies that are not standard. |
| C58 | partial | endpoint buffer | arithmetic over all histories | Missing: server names longer than 1017 characters, or 1012 with ports above 65535 (C58_long_name_refuted). |
| C59 | partial | reply reading | relational proof: two segmentations of the same bytes | Missing: pauses inside a reply, TLS, the greeting (C59_*_refuted). |
| C60 | partial | address pattern | refutation | False: C60_address_syntax_refuted. |
| C61 | proved | the whole client over all histories | invariant over histories | Full. |
| C62 | partial | authentication in the whole dialogue | inversion of runs | Missing: the opportunistic client without STARTTLS, and answers to EHLO of which a piece begins with the code 0; it is false for both (C62_opportunistic_unauthenticated_refuted, C62_code_zero_refuted). |
| C63 | partial | clients, heap model | separation-style invariant over histories | Missing: self-aliasing setter arguments, leaks by copy assignment, of the cpp credential, and of authentication options when the server announces its mechanisms after the first line of its EHLO answer (C63_*_refuted). |
| C64 | partial | heap model | frame property over histories | For histories that keep the rules of 'careful'. Missing (false): setCredentials on a cpp client destroys the credential its copy still shows (C64_shared_credential_refuted). |
| C65 | proved | Message constructor, heap model | every program keeps its pointers below the next address, so the copies the constructor makes do not disturb its arguments | Full: after every program, careful or not. A null subject or body is shown as the empty text. |
| C66 | proved | cpp getErrorMessage_r | bound on the length of all texts | Full. |
| C67 | proved | all client histories | refinement of a reference table of settings | Full. |
| C68 | proved | sendMail and everything it calls | the log and the trace are merged and parsed by an inductive grammar, preserved by every function | Full. A call that throws, blocks or is killed may stop in the middle of a step. |
| C69 | partial | the heap model of every constructor, copy, move, assignment, setter and destructor | simulation between the heap and a list of values, by induction over the history (separation-style triples for each function) | For histories that keep the rules of 'careful'; the others reach the memory errors of C48-C51 and C63 (C69_shared_credential_refuted). The specification records one deviation of the code: assigning a message leaves its sender as it was (C47_sender_refuted). |
| C70 | partial | ErrorResolver on the heap (ModelBuffers) | refinement between heap programs and an interpreter on values, by induction over programs | Missing: copying or assigning from an object whose content was moved away reads a null pointer (C70_moved_from_refuted). |
| C71 | partial | returned texts, createAttachmentsText, the string interface on the heap (ModelBuffers) | ownership triples and counting of live blocks, by induction over programs | Missing: getErrorMessage, getErrorMessage_r and getBase64EncodedFile of the std::string interface lose one block per call (C71_string_interface_refuted; C71_memory counts them). |
| C72 | partial | sendMail, cleanup and whole programs, with a ghost flag telling whether each certificate carries the server's name | homomorphism between a run and the run with misnamed certificates, by induction over programs | Fails: the name is never asked for. C72_names_ignored: no program behaves differently if every certificate is for another name; C72_any_certificate: every write over TLS would reach such a server; C72_wrong_host_refuted: a complete run. |
| C73 | partial | sendMail with its waiting loops, sleeps recorded as events | a judgement on computations (a timeout code comes after a silence), proved for every function of a session | C73_timeout_means_silence_partial: for answers that begin with three digits and when no signal interrupts the connection attempt. Missing (false): an answer shorter than a code is reported as a timeout at once (C73_answer_is_timeout_refuted), so is a connection attempt interrupted by a signal (C73_signal_is_timeout_refuted); with timeout 0 every greeting is late (C73_zero_timeout_refuted). |
| C74 | proved | the Windows branches of every function of a session (ModelWin.v), run by the same programs as the POSIX model | a simulation: every Windows function is matched by its POSIX version in an environment whose fcntl answers are constructed from the ioctlsocket answers | C74_same_dialogue for whole programs, C74_each_operation for single operations after any program. The calls compared are all but the name look-up and the switching of the socket mode. |
| C75 | proved | the references to WinSock of every client and every call of WSAStartup and WSACleanup | an invariant: the references held by the clients never exceed the successful starts less the successful releases | C75_release_needs_reference, for all programs including moves, assignments and failing releases. |
| C76 | partial | as C75 | the same invariant as an equality | C76_all_released_partial holds for programs that do not send with a client that had to connect for a message and failed to send it, that was moved from or assigned to. It fails for the others: C76_retry_refuted, C76_assigned_refuted. |
| C77 | partial | as C75, with every socket call | the invariant of C75, strengthened: a client with a socket number holds its own reference | C77_data_need_reference_partial covers data exchanged by programs without moves. It fails after a move (C77_moved_refuted) and for closing after a refused connection (C77_close_refuted). |
| C78 | proved | initializeSessionWinSock and everything sendMail does after it | case analysis over the stages of a connection attempt | C78_failed_start. |
| C79 | partial | opening and closing of certificate stores, getaddrinfo and freeaddrinfo | an event invariant over all functions | C79_store_closed_partial covers the stores of messages that were sent. It fails for stores when the handshake fails (C79_store_refuted) and for the address lists always (C79_addresses_refuted). |
| C80 | partial | fcntl and the mode of each descriptor, in all functions that use a socket; ioctlsocket on Windows | a machine that checks the calls of one operation, run along every function; an invariant over programs for the connections that stay open | Under the condition that no fcntl call fails and no open descriptor is handed out again. It fails when a switch back fails (C80_failed_switch_refuted), for the greeting (C80_greeting_refuted) and for replies over TLS (C80_tls_reply_refuted), which are awaited in blocking mode. On Windows (C80_windows_*) only a failing ioctlsocket is excluded; C80_windows_failed_switch_refuted shows why. |
| C81 | proved | operator==, on values | unfolding; equality of texts | Full. |
| C82 | proved | all functions in the Windows configuration | the invariant of C61 on the Windows machine, every run described as a path of elementary steps | Full. |
| C83 | partial | the log in the Windows configuration | corollary of C82 | Proved when no client is moved from or assigned to, and when no WSACleanup fails. It fails when both happen: C83_moved_from_refuted (null log), C83_assigned_refuted (write behind the end of the log). |
| C84 | partial | the secure clients in the Windows configuration | as C23 - C25, on the Windows machine | As C23 - C25: the three refutations of the POSIX build hold on Windows too (C84_credentials_in_clear_refuted, C84_base_commands_refuted, C84_recipient_on_descriptor_0_refuted). |
| C85 | proved | startTLSNegotiation in the Windows configuration | case analysis of the negotiation; phases of a connection attempt | Full. The host name is not checked (as in C26). |
| C86 | proved | initializeSessionWinSock | the calls of getaddrinfo and connect in every function of a send | Full. A port above 65535 is taken modulo 65536, as htons does. |
| C87 | proved | all functions in the Windows configuration | the ownership invariant of C41 on the Windows machine | Full, under the same assumption as C41: the system does not hand out an open descriptor again. |
| C88 | partial | sendRawCommand and all its callers in the Windows configuration | a judgement over every function of a send: a too long text ends it with a code other than 0 | Missing: To and Cc fields, whose errors the library ignores (as in C43), and servers that answer with a code below 200. Refuted in full: C88_to_field_refuted sends a message whose To field is longer than INT_MAX bytes; the field is left out, the server gets the rest, and 0 is returned. The example has a user name of INT_MAX bytes. |
| C89 | partial | sendMail in the Windows configuration | transfer of C27, C29, C35 and C57 through the refinement of C74; what a failing Windows call can do is excluded by the result 0 | Missing: replies that begin with "000" (C89_unacknowledged_success_refuted), To and Cc fields that are too long or could not be written, a failing WSACleanup. |
| C90 | partial | sendMail in the Windows configuration | transfer of C28 and C30 through the refinement of C74 | Missing: runs in which a call that only Windows makes fails, and replies '000', for which it is false (C90_refused_recipient_refuted). |
| C91 | partial | authenticateClient in the Windows configuration | transfer of C21 and C62 through the refinement of C74 | Missing: runs in which a call that only Windows makes fails; and what C62 excludes, where it is false (C91_opportunistic_unauthenticated_refuted). |
| C92 | proved | all functions in the Windows configuration | a relation between two runs, kept by every function | Full as stated. The bound is needed: C92_bound_needed. |
| C93 | partial | all functions in the Windows configuration | a forward simulation (C94's) applied to the dialogue of C31 | Missing: replies of 1024 bytes or more (false: C93_long_reply_refuted), timeout 0, credentials above 10^9 bytes, texts above INT_MAX bytes. |
| C94 | proved | all functions in both configurations | a forward simulation: every function of the Windows build is matched with the POSIX one, call by call | Full as stated. The condition on connect() is needed: C94_condition_needed. The converse direction is C74. |
| C95 | proved | all operations in the Windows configuration | every operation shows what the specification intends; induction over the program | Full as stated. |
| C96 | proved | all functions in the Windows configuration | a bound and a condition on the result, composed over every function | Full as stated. The condition on replies is needed: C96_codes_needed. The time spent in connect() is that of the system and not modelled. |
| C97 | partial | interleavings of any number of whole runs, POSIX and Windows | every prefix of a thread's run in which the system hands out free descriptors uses only its own open ones (invariant over the small steps); then induction over the schedule | Proved for all descriptors but 0 (C97_threads_partial, C97_threads_on_windows_partial). For 0 it is false: a client whose write failed goes on with descriptor 0, which can be the socket of another thread (C97_descriptor_0_refuted). It covers TLS: every action on a TLS connection is about exactly one socket, the one the thread created the BIO on (C97_tls, C97_tls_on_windows). |
| C98 | partial | the lookup of the address with the memory that gethostbyname shares between threads (ModelThreads.v), interleavings of any number of whole runs | induction over the schedule, with the fact that each connect() of a run follows its own successful lookup | False in general: C98_wrong_server_refuted (another thread looks up its server between gethostbyname and the copying of the address). Holds when no lookup falls into that gap (C98_undisturbed_partial), in particular with one thread (C98_one_thread_partial). getaddrinfo, used on Windows, returns memory of its own. |
| C99 | partial | every function of ModelHeap.v with the points where new may throw (ModelScarce.v): the members the object has at that moment, what unwinding destroys, noexcept functions | each function is compared with the same function with enough memory: code that only allocates keeps every block that existed (gcut), code that frees first has freed no more than it would have (rcut); then induction over the program | False in general. C99_destruction_refuted: copy assignment (six classes), setUsername, setPassword, setServerName, setCredentials, starting a session and storing an answer free before they allocate, and leave a pointer that the destructor frees again. C99_move_refuted: the noexcept move assignment of messages allocates (std::terminate). C99_leak_refuted: a constructor loses what it allocated. Holds for the other operations (C99_no_memory_error_partial, C99_readable_partial, C99_unchanged_partial), for the objects an operation does not work on (C99_others_unchanged) and, as to leaks, when only operations with one allocation fail (C99_no_leak_partial). |
| C100 | partial | all writes of ModelClient.v; bytes and lines of the text of SpecMime.v | every write is an EHLO, an authentication line or a line of the mail (walk over the steps of the client), each of which is 7-bit; the lines of the text are computed from those of its parts; beginnings of a text have the same complete lines | False in general: 8-bit bodies and bare LF are sent as they are (C100_eight_bit_refuted, C100_bare_line_feed_refuted). Holds for messages whose texts are 7-bit and properly broken, whatever the files, credentials and servers. |
| C101 | partial | Base64::Encode and the text of a mail, as lines | lines of base64 text: groups of letters with a break every 49152 bytes; lines of the text computed from those of its parts | False: base64 text is broken every 64 KiB, so a file of 748 bytes gives a line above the limit (C101_long_line_refuted). C101_lines_partial says exactly when the limit is kept (files of at most 747 bytes); C101_run_partial carries it to every run, with 64 KiB as a bound for all files. |
| C102 | proved | all operations on clients, with the communication log and its limit | a potential: the length of the log plus a price for everything left in the environment's script; each step pays for its log entries, the recursion of cleanup by the failed write that caused it | Proved for programs whose texts are far below 2^62 bytes (modest). C102_bad_names, the converse, excludes names whose outermost visible bytes are not ASCII, which are undefined behaviour (C11). |
| C103 | proved | sendMail of the two secure clients, from the lookup of the name to the end of the mail | a relational program logic for two runs: related while the channel exists (same settings, same TLS script, same conversation), or both without a channel and unable to say anything over TLS; a process that stops early has a conversation that begins the other's | The client must not have a channel left over from a failed negotiation: with one, the first EHLO goes over it, and that case is not covered. Bytes that arrive ahead of the negotiation and were not read are left to OpenSSL, which is not modelled; the model's TLS reads never return them. |
| C104 | proved | addCommunicationLogItem, every function that appends, the special member functions | the potential of C102 (length of the log plus what is left of the script) bounds the length; an invariant of log text, recorded size and allocation over all steps bounds the waste | The bound on the length is for programs far smaller than the address space (modest) and counts the whole program, although a reconnection empties the log. |
| C105 | partial | every function of the clients that reads or writes the four fields, the special member functions and setters | two runs in lock step (ProofPast): they differ only in the past, and a function that reads a part of it is reached only after both runs have written it; the same for the functions of the Windows build (ProofPastWin) | On Windows it is proved for programs without assignments between clients (C105_windows_partial); with one it fails if WSACleanup fails (C105_windows_assignment_refuted). Fails for opportunistic clients in one point: a server without STARTTLS leaves a flag behind that keeps later connections in clear (C105_opportunistic_refuted); C105_settings shows that nothing else changes. Equality is of results, events and logs; the last answer and the last error number have no public getter. |
| C106 | partial | every function of the clients that logs, the special member functions and setters | two runs in lock step (ProofTexts): they differ in the texts and in the logs, and agree or one of them has failed in addCommunicationLogItem (ProofTextsWin for Windows, where a text may also be missing); the second case is excluded by C102 (no exception) and C37 (no overrun) | Full for POSIX; both tables of texts must be modest (the log of the program fits the address space), otherwise std::bad_alloc is raised, which depends on the length of the texts. Windows (C106_windows_partial): programs with safe logs (C83) and without exceptions. It is false for assignments when WSACleanup fails (C106_windows_assignment_refuted): the copied log is overrun or not depending on the length of a text. |
| C107 | proved | startTLSNegotiation and every other function of the clients, the special member functions and setters, both builds | two runs in lock step (ProofSelf, ProofSelf2) that differ only in the setting; the scripts of TLS results never contain the report | Full. What OpenSSL reports for a certificate is an input of the model. |
| C108 | proved | every function of the clients on POSIX; writes that succeed | two runs in lock step with different messages (ProofFate) and different programs (ProofFate2); the events are compared after dropping the writes | Full on POSIX as stated. The two body codes are counted as one because, from reading the code, a secure client without a TLS stream fails at the body with a code that depends on its length; no theorem shows such a run. Not yet tested against wrong programs. |

## 4. Trusted base

* Coq's kernel, including `vm_compute`.
* No axioms. `Print Assumptions` stands under each theorem and must print
  "Closed under the global context". The library axioms a checker may list
  (`Coq.ssr.ssrunder.Under_rel.*`) come with the standard library and are not
  used.
* Faithfulness of the model to the C++ text. Nothing checks it mechanically:
  each definition cites its lines and says where it simplifies.
* The environment: system calls and OpenSSL behave as one of the results the
  oracle types allow, with their documented meaning; each call is one event.
  For C41 and C97, `socket` does not return a descriptor that is still open in
  the process. For C98, the result of `gethostbyname` lies in memory that all
  threads of the process share.
* `std::regex_match` decides membership in the language of the pattern; its
  stack consumption is not modelled. Characters are classified as in the "C"
  locale. `char` is signed.
* Memory allocation succeeds (no `bad_alloc` from `new`), except where a
  definition says otherwise and in `ModelScarce.v` (C99), where any allocation
  that ends up in a member may fail; the temporaries of `std::string` never do.

### Modelled

`base64`, `stringutils`, `messageaddress`, `credential`, `attachment`,
`message`, `plaintextmessage`, `htmlmessage`, `errorresolver` and the error code
headers, `serveroptionsanalyzer`, `smtpclientbase`, `smtpclient`,
`securesmtpclientbase`, `opportunisticsecuresmtpclient`,
`forcedsecuresmtpclient`, and the wrappers in `src/cpp`.

### Not modelled

* The build system and examples (the unit tests are run against the model, see
  section 5). `_WIN32` code outside the clients
  (`strcpy_s`, `fopen_s` and the like) is taken to do what its POSIX counterpart
  does; of the Windows certificate store only opening and closing are modelled.
  Connecting on Windows blocks without a timeout; the model gives only its
  result. A write may end the process (`Killed`) on Windows too, although there
  is no SIGPIPE there: the model allows more behaviours than the code has.
* Diagnostics on stderr; OpenSSL internals (a negotiation is one record of
  results); `mSSL` apart from its BIO.
* Threads that share a client object. (Threads with clients of their own are
  modelled for C97 and C98: the actions of any number of runs, interleaved in
  any way and stopped anywhere. One system call is one action; the memory of a
  thread's objects is its own.)
* Real time: sleeping is counted in seconds.
* Stack overflow other than through unbounded recursion.

## 5. Testing the theorems

`seeded/LOG.jsonl` records the wrong programs tried: the model is edited in a
scratch copy as a realistic bug would, everything is rebuilt, and the theorems
that fail are listed. Names in older lines follow the current theorem names.

`Conformance.v` tests the model itself: it transcribes the assertions of the
project's unit tests (`test/smtpclient_unittest`) and computes them with the
model's definitions. These are literal cases, not proofs; they are evidence that
the definitions the theorems speak of behave as the code's authors expect.

## 6. Findings

Each item of the first list is a counterexample theorem. Those of the second
list were noticed while modelling and follow from model definitions, but have
no theorem of their own.

### With a theorem

* Base64: text longer than 49152 bytes does not decode back (C03). Files of
  4 GiB and more are truncated (C13).
* Threads: the server's address is read from the memory that gethostbyname
  shares between threads, so that a client can connect to the server of another
  thread's client (C98); after a failed write the rest of a mail goes to
  descriptor 0, which can be another thread's connection (C97).
* Addresses: `>`, spaces and dotless domains are accepted (C60). Non-ASCII user
  names reach undefined behaviour in `isspace` (C10).
* `getErrorMessage_r` with maxLength 1 returns an ambiguous 0 (C15).
* EHLO: the last mechanism is lost over TLS (C18); `250 STARTTLS` is missed
  (C19); the outcome depends on segmentation (C59); credentials without AUTH on
  offer lead to a null dereference (C54).
* Security: the flag that keeps an opportunistic client in clear text is sticky,
  so credentials and mail can go out unencrypted (C23, C24, C105);
  `setKeepUsingBaseSendCommands` makes a forced client write in clear (C25); an
  opportunistic client without STARTTLS never authenticates (C62).
* Reply code 000 counts as success (C27-C29, C55).
* Message text: no dot-stuffing (C34), header injection (C35), no close
  delimiter without attachments and a fixed delimiter (C33), unreadable
  attachments are sent empty (C56), short writes lose data (C57).
* Windows: a To field of more than INT_MAX bytes is left out and sending is
  reported as a success (C88).
* Result codes: undocumented 1 and codes of a wrong stage (C36); `fcntl`
  failures and EINTR (C53).
* Connections: a blocking read of the greeting (C39), descriptors leaked by a
  retry and by assignment (C42), writes to descriptor 0 after the connection was
  closed (C25, C43), cleanup that recurses for ever (C44), no RSET after a
  refused recipient (C45), copying a moved-from client (C46).
* Buffers: a received block of 1024 bytes overruns its buffer (C38); long server
  names overrun the endpoint buffer (C58).
* Memory: C47 (copy assignment keeps the old sender), C48, C49, C51, C63; copying a
  moved-from ErrorResolver (C70); `getErrorMessage`, `getErrorMessage_r` and
  `getBase64EncodedFile` of the std::string interface leak (C71).
* Format: 8-bit text and bare line feeds of a body are sent as they are (C100); base64
  text is broken every 64 KiB only, so a file of 748 bytes gives a line longer than
  SMTP allows (C101).
* Lack of memory (C99): copy assignments, the setters of credentials and clients,
  the start of a session and storing an answer free the old text before they
  allocate the new one; if that fails, the destructor frees it again. The move
  assignment of messages is `noexcept` but allocates. Constructors lose what they
  allocated.
* Memory: `extractAuthenticationOptions` parses the remaining text and then the next
  line again, and loses the first result; so each EHLO leaks one object unless
  the mechanisms are announced in the first line of the answer (C63).
* `cpp::SmtpClient::setCredentials` drops the recommended method (C50).
* Windows: a failing WSACleanup writes its message to a null log when a client
  that was moved from is destroyed, and behind the end of the log after a copy
  assignment, which copies the size of the buffer and allocates less (C83).
* Windows: a reference to WinSock leaks when a client tries again after a refused
  greeting or is assigned to (C76); a moved connection is used, and a refused
  socket closed, after WSACleanup (C77); a failed handshake leaks the certificate
  store and every look-up leaks its list of addresses (C79).
* The greeting and every reply over TLS are awaited in blocking mode, where the
  timeout has no effect on a silent server, and a failure to switch back to
  blocking mode is ignored (C80).
* TLS: the name in the certificate is never compared with the server name
  (C72).
* Timeouts: an answer shorter than three bytes and an interrupted connection
  attempt are reported as timeouts; with timeout 0 every greeting is late (C73).

### Without a theorem of their own

* Port numbers are reduced modulo 65536 (part of C52).
* `cpp::MessageAddress::operator==` is declared but not defined.
