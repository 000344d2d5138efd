{"id": "C01", "title": "Base64 encoding is lossless for a standard MIME decoder", "statement": "For every byte sequence, the text produced by Base64::Encode consists only of base64 alphabet characters, '=' padding and CRLF line breaks, and a standard base64 decoder that skips line breaks recovers exactly the original bytes.", "quantifier": "all byte sequences of any length", "why_tests_cant": "Unbounded input length and content; tests sample a few strings and never cross the 48 KiB line-break threshold.", "anchors": ["src/base64.cpp: Base64::Encode", "src/attachment.cpp: Attachment::getBase64EncodedFile"]}
{"id": "C02", "title": "Base64 encoded text has the documented line-break layout and exact length", "statement": "Base64::Encode returns the RFC 4648 encoding of the input with CRLF inserted exactly after every 65536 output characters produced by complete 3-byte groups; its length is 4*ceil(n/3)+2*floor(4*floor(n/3)/65536), and no line is longer than 65536 characters.", "quantifier": "all byte sequences", "why_tests_cant": "Depends on a counter crossing multiples of 65536, for every length.", "anchors": ["src/base64.cpp: Base64::Encode"]}
{"id": "C03", "title": "Base64 Decode inverts Encode", "statement": "Base64::Decode(Base64::Encode(x)) = x. (Holds exactly when x has at most 49152 bytes: beyond that the decoder stops at the line break the encoder inserted.)", "quantifier": "all byte sequences of any length", "why_tests_cant": "The boundary is at one specific length out of infinitely many.", "anchors": ["src/base64.cpp: Base64::Encode, Base64::Decode"]}
{"id": "C04", "title": "Base64 Decode is total and stops at the first foreign character", "statement": "On any string shorter than 2^31 bytes Base64::Decode returns normally, ignores everything from the first character outside the alphabet ('=' included), and yields floor(6k/8) bytes where k is the number of leading alphabet characters.", "quantifier": "all strings", "why_tests_cant": "Arbitrary untrusted input.", "anchors": ["src/base64.cpp: Base64::Decode, is_base64"]}
{"id": "C05", "title": "Trim removes exactly the surrounding white space", "statement": "trim returns the unique string t with no leading or trailing white space such that the input is white space + t + white space; trimLeft/trimRight do it on one side. trim is defined (no undefined behaviour) whenever the scanned characters are ASCII.", "quantifier": "all strings", "why_tests_cant": "All strings, including the behaviour on non-ASCII bytes where isspace on a negative char is undefined.", "anchors": ["src/stringutils.cpp: StringUtils::trim, trimLeft, trimRight"]}
{"id": "C06", "title": "Case conversion only changes ASCII letters", "statement": "toLower/toUpper keep the length, change only A-Z / a-z, are idempotent, and toLower(toUpper(s)) = toLower(s).", "quantifier": "all strings", "why_tests_cant": "All strings.", "anchors": ["src/stringutils.cpp: StringUtils::toLower, toUpper"]}
{"id": "C07", "title": "Which e-mail addresses a MessageAddress accepts", "statement": "Constructing a MessageAddress succeeds exactly when the lower-cased address is local@domain in the sense of the documented pattern (dots matching any character except line breaks), otherwise std::invalid_argument is thrown; the stored address and display name are the arguments unchanged.", "quantifier": "all address and display-name strings", "why_tests_cant": "Regular-expression acceptance over all strings.", "anchors": ["src/messageaddress.cpp: MessageAddress::MessageAddress, isEmailAddressValid"]}
{"id": "C08", "title": "An accepted address cannot inject an SMTP line", "statement": "No accepted e-mail address contains CR, LF or NUL, so MAIL FROM (bracketed address form) and RCPT TO commands built from it are a single line; every accepted address contains '@'.", "quantifier": "all accepted addresses", "why_tests_cant": "Security property over an infinite language.", "anchors": ["src/messageaddress.cpp: isEmailAddressValid", "src/smtpclientbase.cpp: setMailRecipients, addMailRecipients"]}
{"id": "C09", "title": "Address header rendering", "statement": "The To/Cc header value is the comma-space joined list of addresses, each rendered as 'Name <mail>' when it has a display name and 'mail' otherwise, one item per recipient in order.", "quantifier": "all address lists", "why_tests_cant": "All list lengths.", "anchors": ["src/messageaddress.cpp: operator std::string", "src/smtpclientbase.cpp: generateHeaderAddressValues"]}
{"id": "C10", "title": "Credential validation with the strong exception guarantee", "statement": "A Credential can only ever hold a user name with a non-white-space character and a non-empty password: constructor and setters throw std::invalid_argument otherwise and a throwing setter leaves the object unchanged; after any sequence of setter calls the invariant holds and getters return the last accepted values.", "quantifier": "all sequences of constructor/setter calls", "why_tests_cant": "Any history of calls.", "anchors": ["src/credential.cpp"]}
{"id": "C11", "title": "Server name validation with the strong exception guarantee", "statement": "A client never holds a null, empty or blank server name: constructor and setServerName throw in those cases and a throwing setServerName leaves the client unchanged.", "quantifier": "all strings and client states", "why_tests_cant": "All strings.", "anchors": ["src/smtpclientbase.cpp: SMTPClientBase::SMTPClientBase, setServerName"]}
{"id": "C12", "title": "Attachment MIME type depends only on the file extension, case-insensitively", "statement": "getMimeType returns the MIME type the documented table gives for the upper-cased text after the last '.', and the empty string when the extension is not in the table; it does not depend on anything else in the file name.", "quantifier": "all file names", "why_tests_cant": "Infinite set of names.", "anchors": ["src/attachment.cpp: Attachment::getMimeType"]}
{"id": "C13", "title": "Attachment content is transmitted completely", "statement": "For every readable file, getBase64EncodedFile returns the base64 text of the complete file content. (Holds for files smaller than 4 GiB; larger files are silently truncated to size mod 2^32.)", "quantifier": "all file contents", "why_tests_cant": "Needs files larger than 4 GiB to see the failure.", "anchors": ["src/attachment.cpp: Attachment::getBase64EncodedFile"]}
{"id": "C14", "title": "Every library error code has its own message", "statement": "getErrorMessage returns, for every int, a non-empty text; for each error code the library defines it is specific (different from the generic text) and distinct codes have distinct messages.", "quantifier": "all int values", "why_tests_cant": "2^32 inputs.", "anchors": ["src/errorresolver.cpp", "src/socketerrors.h", "src/sslerrors.h", "src/smtpclienterrors.h"]}
{"id": "C15", "title": "getErrorMessage_r respects the caller's buffer", "statement": "getErrorMessage_r never writes outside the maxLength bytes supplied, always NUL-terminates, stores the longest prefix of the message that fits, and returns -1 for a null pointer or zero length, 0 when the whole message was stored and otherwise the number of characters copied.", "quantifier": "all error codes and buffer sizes", "why_tests_cant": "Every buffer size, including boundary sizes.", "anchors": ["src/smtpclientbase.cpp: getErrorMessage_r"]}
{"id": "C16", "title": "Server reply code extraction", "statement": "For a reply starting with three digits the extracted code is their decimal value; a null reply, one shorter than three characters or without a leading number gives -1; the result always lies in [-99, 999].", "quantifier": "all byte strings a server can send", "why_tests_cant": "Arbitrary untrusted input.", "anchors": ["src/smtpclientbase.cpp: extractReturnCode"]}
{"id": "C17", "title": "End of a multi-line EHLO reply is recognised", "statement": "For a reply made of lines separated by CRLF (with or without a final CRLF) the reply is considered complete exactly when its last line starts with '250 '.", "quantifier": "all replies", "why_tests_cant": "All line lists.", "anchors": ["src/serveroptionsanalyzer.cpp: containsAllOptions"]}
{"id": "C18", "title": "Authentication mechanisms advertised by the server are recognised", "statement": "For an EHLO reply of CRLF-terminated lines, the recognised mechanisms are exactly the space separated words, of the six known mechanism names, of the first line starting with '250-AUTH' or '250 AUTH'; with no such line there are none.", "quantifier": "all EHLO replies", "why_tests_cant": "All line lists and mechanism lists.", "anchors": ["src/smtpclientbase.cpp: extractAuthenticationOptions, ParseAuthenticationOptions"]}
{"id": "C19", "title": "STARTTLS advertisement is recognised", "statement": "Whenever the server's EHLO reply advertises STARTTLS on any of its lines the opportunistic client notices it.", "quantifier": "all EHLO replies", "why_tests_cant": "All replies and all ways the network splits them.", "anchors": ["src/opportunisticsecuresmtpclient.cpp: isStartTLSSupported, establishConnectionWithServer"]}
{"id": "C20", "title": "Authentication mechanism selection", "statement": "The client only uses a mechanism that the server advertised and that is compatible with the method recommended in the credential; with no recommendation it prefers PLAIN, then LOGIN, then XOAUTH2; if none applies it returns CLIENT_AUTHENTICATION_METHOD_NOTSUPPORTED and sends nothing.", "quantifier": "all advertised sets, credentials and server behaviours", "why_tests_cant": "All combinations and all server behaviours.", "anchors": ["src/smtpclientbase.cpp: authenticateClient"]}
{"id": "C21", "title": "Authentication data sent is exactly the credential", "statement": "The AUTH PLAIN argument decodes to NUL user NUL password; the two LOGIN lines decode to the user name and the password; the XOAUTH2 argument decodes to user=..^Aauth=Bearer ..^A^A; each is a single line when the credential is shorter than 48 KiB.", "quantifier": "all user names and passwords", "why_tests_cant": "All strings.", "anchors": ["src/smtpclientbase.cpp: authenticateWithMethodPlain, authenticateWithMethodLogin, authenticatedWithMethodXOauth2"]}
{"id": "C22", "title": "Credentials never reach the communication log", "statement": "The communication log, the return value and everything observable except the bytes of the authentication lines are the same for any two user names/passwords, for every behaviour of the network and server.", "quantifier": "all pairs of credentials, messages and network behaviours", "why_tests_cant": "Non-interference: relates pairs of runs.", "anchors": ["src/smtpclientbase.cpp: authenticateWithMethod*, addCommunicationLogItem"]}
{"id": "C23", "title": "The opportunistic client sends credentials only over TLS", "statement": "An OpportunisticSecureSMTPClient never writes authentication data to the unencrypted socket, whatever servers it talks to over its life time.", "quantifier": "all histories of sendMail calls and server behaviours", "why_tests_cant": "Any history of connections.", "anchors": ["src/opportunisticsecuresmtpclient.cpp: establishConnectionWithServer", "src/smtpclientbase.cpp: setKeepUsingBaseSendCommands"]}
{"id": "C24", "title": "The opportunistic client encrypts the message once STARTTLS succeeded", "statement": "If STARTTLS was negotiated on the connection, no part of the mail transaction is written to the unencrypted socket.", "quantifier": "all messages, histories and server behaviours", "why_tests_cant": "Any history of connections.", "anchors": ["src/opportunisticsecuresmtpclient.cpp", "src/securesmtpclientbase.cpp: sendCommandWithFeedback"]}
{"id": "C25", "title": "The forced-TLS client sends nothing in clear", "statement": "A ForcedSecureSMTPClient never writes any byte to the unencrypted socket and writes to the TLS channel only after the handshake and the certificate check succeeded.", "quantifier": "all messages, histories and server behaviours", "why_tests_cant": "All server behaviours.", "anchors": ["src/forcedsecuresmtpclient.cpp", "src/securesmtpclientbase.cpp"]}
{"id": "C26", "title": "Server certificate acceptance rule", "statement": "TLS negotiation succeeds exactly when the context, connection and handshake succeed, a certificate was presented and the chain verifies, or it is a depth-zero self-signed certificate and the caller opted in; otherwise the documented error code is returned. (The host name is not part of the decision.)", "quantifier": "all TLS library outcomes", "why_tests_cant": "All combinations of outcomes.", "anchors": ["src/securesmtpclientbase.cpp: startTLSNegotiation"]}
{"id": "C27", "title": "sendMail reports success only if the server accepted the message", "statement": "If sendMail returns 0 then the server answered the end-of-data line with code 250.", "quantifier": "all messages, client kinds, and server and network behaviours", "why_tests_cant": "All server and network behaviours.", "anchors": ["src/smtpclientbase.cpp: sendMail, setMailBody"]}
{"id": "C28", "title": "A refused recipient aborts the mail", "statement": "If the server refuses any recipient, the DATA command is not sent and sendMail returns a non-zero code: no partial delivery.", "quantifier": "all recipient lists and server behaviours", "why_tests_cant": "All subsets of refused recipients.", "anchors": ["src/smtpclientbase.cpp: setMailRecipients, addMailRecipients"]}
{"id": "C29", "title": "Every recipient is announced exactly once", "statement": "A successful sendMail announced exactly one RCPT TO per To, Cc and Bcc recipient, in that order, with exactly their e-mail addresses, and each was answered 250.", "quantifier": "all messages and server behaviours", "why_tests_cant": "All list sizes.", "anchors": ["src/smtpclientbase.cpp: setMailRecipients, addMailRecipients"]}
{"id": "C30", "title": "Bcc recipients are not disclosed", "statement": "The bytes transmitted between DATA and the end-of-data marker do not depend on the Bcc list.", "quantifier": "all pairs of messages differing in Bcc only", "why_tests_cant": "Non-interference: relates pairs of runs.", "anchors": ["src/smtpclientbase.cpp: setMailHeaders, setMailBody"]}
{"id": "C31", "title": "Against a cooperative server the whole dialogue is exactly the expected one", "statement": "If the server answers every command positively in one piece, sendMail returns 0 and the bytes put on the wire are exactly EHLO, authentication, MAIL FROM, RCPT TO per recipient, DATA, From/To/Cc/Subject/Content-Type headers, the MIME body, end of data and QUIT (no QUIT in batch mode), in that order.", "quantifier": "all messages, attachments, credentials and positive reply texts", "why_tests_cant": "All message shapes.", "anchors": ["src/smtpclientbase.cpp: sendMail", "src/smtpclient.cpp: establishConnectionWithServer"]}
{"id": "C32", "title": "Chunked body transmission loses nothing", "statement": "The body is transmitted in pieces of 1 to 512 bytes whose concatenation is exactly the body text, whatever its length; a body of at most 512 bytes is one piece.", "quantifier": "all body lengths", "why_tests_cant": "Boundary conditions at every multiple of 512.", "anchors": ["src/smtpclientbase.cpp: setMailBody"]}
{"id": "C33", "title": "The MIME structure can be parsed back", "statement": "A standard multipart parser applied to the transmitted body recovers the text part and every attachment (type, name, content id, content) in order.", "quantifier": "all messages without the boundary line in the body", "why_tests_cant": "All bodies and attachment lists.", "anchors": ["src/smtpclientbase.cpp: setMailBody, createAttachmentsText"]}
{"id": "C34", "title": "SMTP transparency of the message text", "statement": "For every message body, the receiving server reads back exactly the transmitted message: lines starting with '.' are protected.", "quantifier": "all bodies", "why_tests_cant": "All bodies.", "anchors": ["src/smtpclientbase.cpp: setMailBody"]}
{"id": "C35", "title": "Header fields cannot be injected through the API", "statement": "The header section contains exactly one From, Subject and Content-Type line, one To/Cc line iff there are such recipients, and nothing else, for all message fields.", "quantifier": "all subjects, display names", "why_tests_cant": "All strings.", "anchors": ["src/smtpclientbase.cpp: setMailHeaders, addMailHeader"]}
{"id": "C36", "title": "Return codes identify the failing stage", "statement": "A non-zero return value of sendMail is either the server's reply code to the failing command or one of the documented negative codes, for which getErrorMessage has a specific text.", "quantifier": "all runs", "why_tests_cant": "All failure points.", "anchors": ["src/smtpclientbase.cpp", "src/errorresolver.cpp"]}
{"id": "C37", "title": "Communication log content and buffer safety", "statement": "Whatever the history of operations (including copies and moves of clients), appending to the log never writes outside its buffer and the log is exactly the sequence of entries appended since the connection was opened, each on its own line with its prefix.", "quantifier": "all histories of client operations", "why_tests_cant": "Any history and any entry lengths.", "anchors": ["src/smtpclientbase.cpp: addCommunicationLogItem, initializeSession, copy/move operations"]}
{"id": "C38", "title": "Receiving a server reply never overruns the receive buffer", "statement": "Whatever the server sends, storing and terminating a received block stays inside the receive buffer.", "quantifier": "all sequences of received blocks", "why_tests_cant": "Needs a block of exactly the buffer size.", "anchors": ["src/smtpclientbase.cpp: getRawCommandReply, checkServerGreetings", "src/securesmtpclientbase.cpp: getServerReply"]}
{"id": "C39", "title": "Waiting for a reply is bounded by the configured timeout", "statement": "While waiting for one reply the client sleeps at most commandTimeout times one second; if nothing arrives it reports a timeout after exactly commandTimeout seconds; a reply arriving earlier is returned.", "quantifier": "all timeouts and arrival schedules", "why_tests_cant": "All schedules.", "anchors": ["src/smtpclientbase.cpp: getRawCommandReply, checkServerGreetings", "src/securesmtpclientbase.cpp: getServerReply"]}
{"id": "C40", "title": "Connection life cycle in normal and batch mode", "statement": "After a successful sendMail in normal mode QUIT was sent and the socket is closed and the client is disconnected; in batch mode the connection stays open, later sendMail calls reuse it without reconnecting, and QUIT is sent when the client is destroyed.", "quantifier": "all histories of sendMail calls", "why_tests_cant": "Any number of mails.", "anchors": ["src/smtpclientbase.cpp: sendMail", "src/smtpclient.cpp: cleanup", "src/securesmtpclientbase.cpp: cleanup"]}
{"id": "C41", "title": "A socket is owned by one client and closed at most once", "statement": "Over any history of creating, copying, moving, using and destroying clients, no two clients hold the same open socket and no socket is closed twice.", "quantifier": "all histories", "why_tests_cant": "Any history.", "anchors": ["src/smtpclientbase.cpp: copy/move operations", "src/smtpclient.cpp: cleanup"]}
{"id": "C42", "title": "No descriptor leak", "statement": "When all clients have been destroyed, every socket that was opened has been closed.", "quantifier": "all histories", "why_tests_cant": "Any history.", "anchors": ["src/smtpclientbase.cpp: initializeSessionPOSIX, operator=", "src/smtpclient.cpp"]}
{"id": "C43", "title": "After the connection is torn down nothing more is written", "statement": "Once a write error or timeout closed the connection, the client writes no more bytes to any descriptor until it reconnects.", "quantifier": "all failure points", "why_tests_cant": "Every failure point.", "anchors": ["src/smtpclientbase.cpp: addMailRecipients, setMailHeaders, sendRawCommand"]}
{"id": "C44", "title": "Closing a broken batch connection terminates", "statement": "When writes fail, cleanup finishes after a bounded number of steps.", "quantifier": "all failure schedules", "why_tests_cant": "Unbounded failure sequences.", "anchors": ["src/smtpclient.cpp: cleanup", "src/securesmtpclientbase.cpp: cleanup", "src/smtpclientbase.cpp: sendRawCommand, sendQuitCommand"]}
{"id": "C45", "title": "A failed sendMail does not poison the next one", "statement": "After sendMail returned a non-zero code, the next sendMail on the same client starts a new mail transaction that a standard-conforming server accepts.", "quantifier": "all failing runs followed by another sendMail", "why_tests_cant": "Histories of calls.", "anchors": ["src/smtpclientbase.cpp: sendMail"]}
{"id": "C46", "title": "Copying or moving a client preserves its configuration", "statement": "Copy construction/assignment yields a disconnected client with the same server, port, batch mode, timeout, credential and flags; move transfers the connection too and leaves the source empty; the source of a copy is unchanged.", "quantifier": "all client states", "why_tests_cant": "All states.", "anchors": ["src/smtpclientbase.cpp: copy/move operations", "src/securesmtpclientbase.cpp: copy/move operations"]}
{"id": "C47", "title": "Assigning a message makes it equal to the source", "statement": "After copy construction, copy assignment or move, the target message has the same sender, recipients, subject, body and attachments as the source had.", "quantifier": "all pairs of messages", "why_tests_cant": "All states.", "anchors": ["src/message.cpp: Message::operator="]}
{"id": "C48", "title": "Memory safety of the value classes", "statement": "Over any history of constructing, copying, assigning, moving, modifying and destroying MessageAddress, Credential and Attachment objects there is no double free, no use after free and, after all objects are destroyed, no leak.", "quantifier": "all histories", "why_tests_cant": "Any history.", "anchors": ["src/messageaddress.cpp", "src/credential.cpp", "src/attachment.cpp"]}
{"id": "C49", "title": "Memory safety of Message", "statement": "Over any history of constructing, copying, assigning, moving and destroying Message objects there is no double free, mismatched deallocation or use after free.", "quantifier": "all histories", "why_tests_cant": "Any history.", "anchors": ["src/message.cpp"]}
{"id": "C50", "title": "The C++ string API transmits the same data as the C API", "statement": "Wrapping strings through the jed_utils::cpp classes preserves every field for all strings without NUL characters, including the recommended authentication method.", "quantifier": "all strings", "why_tests_cant": "All strings.", "anchors": ["src/cpp/*.cpp"]}
{"id": "C51", "title": "cpp clients manage their credential copy safely", "statement": "Over any history of copying cpp clients and calling setCredentials there is no double free and getCredentials never returns a dangling pointer.", "quantifier": "all histories", "why_tests_cant": "Any history.", "anchors": ["src/cpp/smtpclient.hpp", "src/cpp/smtpclient.cpp: setCredentials"]}
{"id": "C52", "title": "The client connects to the configured port", "statement": "The TCP connection is attempted to exactly the configured port number (true for ports below 65536, reduced mod 65536 otherwise).", "quantifier": "all unsigned int ports", "why_tests_cant": "2^32 values.", "anchors": ["src/smtpclientbase.cpp: initializeSessionPOSIX"]}
{"id": "C53", "title": "Connection establishment result codes", "statement": "Opening the TCP session returns 0 exactly when all socket calls succeed, and the documented negative code of the first failing call otherwise.", "quantifier": "all combinations of system call outcomes", "why_tests_cant": "All combinations.", "anchors": ["src/smtpclientbase.cpp: initializeSessionPOSIX, setSocketToNonBlockingPOSIX, setSocketToBlockingPOSIX"]}
{"id": "C54", "title": "A client with credentials copes with servers that offer no authentication", "statement": "When credentials are configured and the server does not advertise AUTH, sendMail returns an error code (no crash).", "quantifier": "all EHLO replies without AUTH", "why_tests_cant": "All replies.", "anchors": ["src/smtpclientbase.cpp: authenticateClient"]}
{"id": "C55", "title": "MAIL FROM fallback formats", "statement": "The client tries the three sender formats in order, moving to the next only on reply 501, stops at the first 250 and returns any other reply code immediately.", "quantifier": "all reply sequences", "why_tests_cant": "All reply sequences.", "anchors": ["src/smtpclientbase.cpp: setMailRecipients"]}
{"id": "C56", "title": "An unreadable attachment is reported", "statement": "If an attachment file cannot be read, sendMail does not report success.", "quantifier": "all messages and file systems", "why_tests_cant": "All file systems.", "anchors": ["src/smtpclientbase.cpp: createAttachmentsText", "src/attachment.cpp: getBase64EncodedFile"]}
{"id": "C57", "title": "Everything handed to the socket is transmitted", "statement": "When sendMail returns 0 the server's side received every byte of every command, even if the operating system accepts only part of a write.", "quantifier": "all write outcomes", "why_tests_cant": "All partial-write schedules.", "anchors": ["src/smtpclientbase.cpp: sendRawCommand"]}
{"id": "C58", "title": "The TLS endpoint name buffer is large enough", "statement": "Building 'server:port' for TLS never overruns its 1024 byte buffer (true when the server name has at most 1017 characters).", "quantifier": "all server names and ports", "why_tests_cant": "All lengths.", "anchors": ["src/securesmtpclientbase.cpp: startTLSNegotiation"]}
{"id": "C59", "title": "EHLO handling is independent of how the network splits the reply", "statement": "The outcome of the EHLO exchange (code, recognised mechanisms, STARTTLS) depends only on the bytes sent by the server, not on how they are split into segments.", "quantifier": "all replies and all segmentations", "why_tests_cant": "All segmentations.", "anchors": ["src/smtpclientbase.cpp: sendServerIdentification, getRawCommandReply", "src/securesmtpclientbase.cpp: getServerReply, getServerSecureIdentification"]}
{"id": "C60", "title": "Accepted addresses are safe inside angle brackets", "statement": "No accepted e-mail address contains '<', '>' or white space, and its domain contains a dot. (False: the dots of the pattern match any character.)", "quantifier": "all accepted addresses", "why_tests_cant": "All strings.", "anchors": ["src/messageaddress.cpp: isEmailAddressValid"]}
{"id": "C61", "title": "Undefined behaviour has only the listed causes", "statement": "Whatever a program does with clients through the API and whatever the network does, undefined behaviour (null pointer dereference, buffer overrun, invalid isspace/FD_SET argument) occurs only for one of these reasons: a client that was moved from is used; credentials are set and the server offers no AUTH; a message with a null array and a positive count; a block of 1024 or more bytes received in clear; a host name resolving to a non-IPv4 address; server name too long for the TLS endpoint; a descriptor >= 1024; a non-ASCII byte in a reply or server name.", "quantifier": "all programs (creation, copy, move, assignment, setters, sendMail, destruction of several clients) and network behaviours", "why_tests_cant": "Absence of undefined behaviour over all histories and network schedules.", "anchors": ["src/smtpclientbase.cpp", "src/securesmtpclientbase.cpp", "src/opportunisticsecuresmtpclient.cpp", "src/forcedsecuresmtpclient.cpp"]}
{"id": "C62", "title": "A client with credentials authenticates before it sends mail", "statement": "When credentials are configured, sendMail issues a MAIL command on a new connection only after the server accepted an authentication (every line but the last answered 334, the last one 235).", "quantifier": "all messages, credentials, client kinds and server behaviours", "why_tests_cant": "All server behaviours and histories.", "anchors": ["src/smtpclient.cpp: establishConnectionWithServer", "src/opportunisticsecuresmtpclient.cpp: establishConnectionWithServer", "src/forcedsecuresmtpclient.cpp: establishConnectionWithServer", "src/smtpclientbase.cpp: authenticateClient"]}
{"id": "C63", "title": "Memory safety of the client objects", "statement": "Over any history of constructing, copying, assigning, moving, configuring, using and destroying SMTPClient objects (with the messages and credentials given to them) there is no double free, no mismatched deallocation and no use after free, and after all objects are destroyed no memory is lost.", "quantifier": "all histories", "why_tests_cant": "Any history.", "anchors": ["src/smtpclientbase.cpp: SMTPClientBase, operator=, setServerName, setCredentials"]}
{"id": "C64", "title": "Objects do not share state", "statement": "An operation on some objects leaves everything every other object shows (texts, recipients, attachments, credentials, log) unchanged; in particular a message keeps its content when the addresses and attachments it was built from, or the message it was copied from, are modified or destroyed, and a client keeps its credential when the Credential given to it changes.", "quantifier": "all histories and all operations", "why_tests_cant": "Any history.", "anchors": ["src/message.cpp", "src/messageaddress.cpp", "src/attachment.cpp", "src/credential.cpp", "src/smtpclientbase.cpp"]}
{"id": "C65", "title": "A message holds what it was constructed from", "statement": "A newly constructed message shows exactly the sender, the To, Cc and Bcc recipients, the subject, the body and the attachments given to the constructor, in the given order.", "quantifier": "all histories, all constructor arguments", "why_tests_cant": "All argument lists and sizes.", "anchors": ["src/message.cpp: Message"]}
{"id": "C66", "title": "Error texts through the string API are complete", "statement": "getErrorMessage_r of the string API returns 0 and stores the complete text that getErrorMessage returns, for every error code: the internal 1024-byte buffer never truncates a text.", "quantifier": "all int error codes and all initial contents of the buffer", "why_tests_cant": "2^32 codes.", "anchors": ["src/cpp/smtpclient.cpp: getErrorMessage_r", "src/cpp/forcedsecuresmtpclient.cpp: getErrorMessage_r", "src/cpp/opportunisticsecuresmtpclient.cpp: getErrorMessage_r", "src/errorresolver.cpp"]}
{"id": "C67", "title": "Getters show what the program configured", "statement": "After any history of operations on any number of clients, whatever the network did, getServerName, getServerPort, getBatchMode, getCommandTimeout, getCredentials and getAcceptSelfSignedCert of every client return exactly what the successful constructor, setter, copy and move operations established last; sending mail never changes them, and a refused setter call changes nothing.", "quantifier": "all histories of operations on several clients and all network behaviours", "why_tests_cant": "Any history, any interleaving of sends and setters.", "anchors": ["src/smtpclientbase.cpp: setServerName, setServerPort, setBatchMode, setCommandTimeout, setCredentials, getters", "src/securesmtpclientbase.cpp: setAcceptSelfSignedCert, getAcceptSelfSignedCert"]}
{"id": "C68", "title": "The communication log is a faithful transcript", "statement": "For every mail sent, whatever the history and the network: the log of the connection gains exactly one entry for each connection attempt, command, header line, authentication step, TLS negotiation step and received reply, in the order they occurred, with the text that was sent or received (authentication lines masked, the answers to LOGIN challenges omitted, the last byte of a TLS reply and of the greeting omitted, attachments omitted); nothing is sent in the clear or over TLS without its entry, no reply is noted that was not received, and nothing received is left out except what arrives after the timeout. The only other entries are fixed remarks and system error messages. Logs of other clients do not change.", "quantifier": "all histories, messages and network behaviours", "why_tests_cant": "Any interleaving of partial reads, failures and timeouts.", "anchors": ["src/smtpclientbase.cpp: addCommunicationLogItem, getCommunicationLog, sendCommand, sendCommandWithFeedback, sendRawCommand, checkServerGreetings, setMailHeaders, setMailBody, authenticate*", "src/securesmtpclientbase.cpp: sendCommand, getServerReply, startTLSNegotiation"]}
{"id": "C69", "title": "Objects are independent values", "statement": "After any history of constructing, copying, moving, assigning, configuring, using and destroying addresses, attachments, credentials, messages and clients, everything the getters of each object return is what the history gives it when every object is taken as an independent value: a constructor stores its arguments or throws and leaves no object, a copy equals its source, a move hands the content over, a setter changes exactly one field or throws and changes nothing.", "quantifier": "all histories of operations on any number of objects, all argument texts, including texts obtained from getters", "why_tests_cant": "Any history.", "anchors": ["src/message.cpp", "src/messageaddress.cpp", "src/attachment.cpp", "src/credential.cpp", "src/smtpclientbase.cpp", "src/cpp/smtpclient.cpp: setCredentials"]}
{"id": "C70", "title": "ErrorResolver objects behave like values", "statement": "Whatever sequence of constructions, copies, assignments, moves and destructions a program performs on ErrorResolver objects, each object reports the code and the message last given to it, operations on one object never change another, no freed or null memory is read and nothing is freed twice - also when the content of an object has been moved to another one.", "quantifier": "every program that creates, copies, assigns, moves, reads and destroys any number of ErrorResolver objects, in any order, with any error codes, interleaved with calls that return texts", "why_tests_cant": "A memory error depends on the order of operations of the whole program; tests exercise a few orders and cannot observe a double free or a leak.", "anchors": ["src/errorresolver.cpp: ErrorResolver::ErrorResolver, operator=, ~ErrorResolver", "src/errorresolver.h"]}
{"id": "C71", "title": "Texts returned in allocated memory are the caller's, and nothing else stays allocated", "statement": "The memory returned by getErrorMessage and getBase64EncodedFile keeps its text until the program frees it with delete[]. Apart from it and from the objects still alive, no call leaves memory allocated: neither getErrorMessage_r, nor the rendering of attachments by sendMail, nor the calls of the std::string interface.", "quantifier": "every program that calls these functions in any order, for all error codes, buffers, file systems and attachments", "why_tests_cant": "Leaks are invisible to assertions on results, and grow with the number of calls, which tests do not vary.", "anchors": ["src/smtpclientbase.cpp: SMTPClientBase::getErrorMessage, getErrorMessage_r, createAttachmentsText", "src/attachment.cpp: Attachment::getBase64EncodedFile", "src/cpp/attachment.cpp: Attachment::getBase64EncodedFile", "src/cpp/smtpclient.cpp: SmtpClient::getErrorMessage, getErrorMessage_r", "src/cpp/forcedsecuresmtpclient.cpp", "src/cpp/opportunisticsecuresmtpclient.cpp"]}
{"id": "C72", "title": "TLS traffic reaches only the server the program named", "statement": "What a secure client writes over TLS reaches only a server whose verified certificate carries the configured server name: a server with a valid certificate for another name gets neither the credentials nor the mail.", "quantifier": "every program, every sequence of certificates presented by the servers, every verification result", "why_tests_cant": "A test server presents one certificate; that the outcome never depends on the name is a statement about pairs of executions.", "anchors": ["src/securesmtpclientbase.cpp: SecureSMTPClientBase::startTLSNegotiation", "src/forcedsecuresmtpclient.cpp: establishConnectionWithServer", "src/opportunisticsecuresmtpclient.cpp: establishConnectionWithServer"]}
{"id": "C73", "title": "A timeout is reported only after the configured silence", "statement": "When a sending operation ends with a timeout code, the configured number of seconds passed during which nothing was received or written, or the connection attempt took longer than that; a server that answers is not reported as silent.", "quantifier": "every client kind, message, timeout value, timing and content of the server's answers, and every result of the system calls", "why_tests_cant": "Depends on all timings of all answers; tests check a few, and waiting times make them slow.", "anchors": ["src/smtpclientbase.cpp: SMTPClientBase::checkServerGreetings, getRawCommandReply, sendRawCommand, initializeSessionPOSIX", "src/securesmtpclientbase.cpp: SecureSMTPClientBase::getServerReply, sendCommandWithFeedback", "src/socketerrors.h", "src/smtpclienterrors.h"]}
{"id": "C74", "title": "The Windows build holds the same conversation", "statement": "The same program in the same network has the same results and exchanges the same bytes with the server, in the same order, on Windows as on POSIX systems, as long as no connection attempt fails and no call that only Windows makes fails.", "quantifier": "every program over any number of clients of every kind, every network behaviour and every result of the Windows calls", "why_tests_cant": "Two builds on two platforms would have to be compared on all inputs; the unit tests run on one platform at a time and need no server.", "anchors": ["src/smtpclientbase.cpp: SMTPClientBase::initializeSessionWinSock, setSocketToNonBlockingWinSock, setSocketToBlockingWinSock, doWSACleanup, addWSAMessageToCommunicationLog, sendRawCommand, getRawCommandReply", "src/smtpclient.cpp: SMTPClient::cleanup", "src/securesmtpclientbase.cpp: SecureSMTPClientBase::cleanup, startTLSNegotiation"]}
{"id": "C75", "title": "WSACleanup is called only while WinSock is started", "statement": "On Windows the library never releases a reference to WinSock it does not hold: whenever WSACleanup is called, WSAStartup has succeeded more often than WSACleanup so far, so another user of WinSock in the process never loses a reference.", "quantifier": "every program over any number of clients of every kind (creating, copying, moving, assigning, sending, destroying), every network behaviour and every result of the Windows calls", "why_tests_cant": "The count depends on the whole history of all clients and on which calls fail; tests do not see the references of the process.", "anchors": ["src/smtpclientbase.cpp: SMTPClientBase::initializeSessionWinSock, doWSACleanup, cleanup", "src/smtpclient.cpp: SMTPClient::cleanup", "src/securesmtpclientbase.cpp: SecureSMTPClientBase::cleanup"]}
{"id": "C76", "title": "Every reference to WinSock is released", "statement": "On Windows, when all clients have been destroyed, WSACleanup has succeeded as often as WSAStartup, provided no WSACleanup failed.", "quantifier": "every program over any number of clients, every network behaviour and every result of the Windows calls", "why_tests_cant": "A leaked reference has no visible effect in a test; whether one leaks depends on the history of failures, moves and assignments.", "anchors": ["src/smtpclientbase.cpp: SMTPClientBase::initializeSessionWinSock, doWSACleanup, cleanup, operator=", "src/smtpclient.cpp: SMTPClient::cleanup", "src/securesmtpclientbase.cpp: SecureSMTPClientBase::cleanup"]}
{"id": "C77", "title": "Sockets are used only while WinSock is started", "statement": "On Windows the library exchanges data with the server, and shuts down and closes its sockets, only while it holds a reference to WinSock.", "quantifier": "every program over any number of clients, every network behaviour and every result of the Windows calls, at every socket call", "why_tests_cant": "Another user of WinSock in the process hides the mistake; the order of release and use depends on the history.", "anchors": ["src/smtpclientbase.cpp: SMTPClientBase::initializeSessionWinSock, doWSACleanup, cleanup, sendRawCommand", "src/smtpclient.cpp: SMTPClient::cleanup"]}
{"id": "C78", "title": "A failed connection attempt is reported by its own code", "statement": "On Windows, if WSAStartup, the look-up of the server name, the creation of the socket or the connection fails while a message is sent, sendMail returns the code of that failure (-4, -5, -1, -2) and no data are exchanged.", "quantifier": "every state of every client, every message, every network behaviour and every result of the Windows calls", "why_tests_cant": "The failures have to be injected into Windows calls at every possible state.", "anchors": ["src/smtpclientbase.cpp: SMTPClientBase::initializeSessionWinSock, establishConnectionWithServer, sendMail", "src/socketerrors.h"]}
{"id": "C79", "title": "What a connection attempt acquires from Windows is released", "statement": "On Windows the certificate stores opened and the address lists obtained while a message is sent are released by the time sendMail returns.", "quantifier": "every state of every client, every message, every network behaviour and every result of the Windows calls", "why_tests_cant": "A leak of a handle or list is invisible in a test and depends on the path taken.", "anchors": ["src/smtpclientbase.cpp: SMTPClientBase::initializeSessionWinSock", "src/securesmtpclientbase.cpp: SecureSMTPClientBase::startTLSNegotiation"]}
{"id": "C80", "title": "Commands are sent in blocking mode, replies are awaited without blocking", "statement": "Every command and every piece of the message is written to a socket in blocking mode, so that it is not cut short by a full send buffer; replies are awaited in non-blocking mode, so that the configured timeout limits the wait; an operation that returns leaves its socket in blocking mode.", "quantifier": "every program with any number of clients, every network behaviour, every result of fcntl", "why_tests_cant": "A wrong mode shows only when the peer is slow or a buffer is full; it depends on the whole history of switches on that socket.", "anchors": ["src/smtpclientbase.cpp: SMTPClientBase::setSocketToBlockingPOSIX, setSocketToNonBlockingPOSIX, getRawCommandReply, initializeSessionPOSIX, checkServerGreetings", "src/securesmtpclientbase.cpp: SecureSMTPClientBase::getServerReply"]}
{"id": "C81", "title": "Comparing addresses", "statement": "Two addresses compare equal exactly when they were constructed from the same e-mail address and the same display name, letter case included.", "quantifier": "all pairs of accepted addresses and names without NUL character", "why_tests_cant": "A comparison can be wrong on any pair of texts.", "anchors": ["src/messageaddress.cpp: MessageAddress::operator=="]}
{"id": "C82", "title": "Causes of undefined behaviour on Windows", "statement": "A program built for Windows that uses the library runs into undefined behaviour only for one of a short list of reasons: those of the POSIX build except large descriptors and long resolved names, and a failing WSACleanup after a client was moved from or assigned to.", "quantifier": "every program with any number of clients, every network and WinSock behaviour", "why_tests_cant": "Undefined behaviour can be silent, and the tests do not run the Windows code against failing calls.", "anchors": ["src/smtpclientbase.cpp: SMTPClientBase::initializeSessionWinSock, doWSACleanup, cleanup, getRawCommandReply", "src/securesmtpclientbase.cpp: SecureSMTPClientBase::startTLSNegotiation"]}
{"id": "C83", "title": "The communication log is written safely on Windows", "statement": "Whatever a program does with its clients on Windows, writing an entry to the communication log never uses a null log and never writes behind its end.", "quantifier": "every program with any number of clients, every network and WinSock behaviour", "why_tests_cant": "The entry that overruns the log may be the message of a call that fails only rarely, after any history.", "anchors": ["src/smtpclientbase.cpp: SMTPClientBase::operator=, addCommunicationLogItem, doWSACleanup"]}
{"id": "C84", "title": "Secure clients on Windows keep credentials and mail encrypted", "statement": "On Windows, a client with opportunistic security never writes a text that depends on the credentials in clear, and writes nothing in clear once the TLS session exists; a client with forced security writes nothing outside a TLS session whose certificate was accepted.", "quantifier": "every client state, program history, message, network, WinSock and OpenSSL behaviour", "why_tests_cant": "The Windows code paths differ and every interleaving of failures would have to be tried.", "anchors": ["src/securesmtpclientbase.cpp: SecureSMTPClientBase::startTLSNegotiation, sendCommand, sendRawCommand", "src/opportunisticsecuresmtpclient.cpp: OpportunisticSecureSMTPClient::establishConnectionWithServer", "src/forcedsecuresmtpclient.cpp: ForcedSecureSMTPClient::establishConnectionWithServer"]}
{"id": "C85", "title": "The certificate decision on Windows", "statement": "On Windows a TLS session is accepted exactly when every step succeeded, the system certificate store could be opened and the chain is valid (or self-signed with the opt-in); otherwise the documented code of the first failed step is returned and nothing is written.", "quantifier": "all results of the OpenSSL calls and of CertOpenSystemStore, both settings of the self-signed opt-in", "why_tests_cant": "The decision depends on the combination of results of about eight calls.", "anchors": ["src/securesmtpclientbase.cpp: SecureSMTPClientBase::startTLSNegotiation", "src/sslerrors.h"]}
{"id": "C86", "title": "Windows connects to the configured server and port", "statement": "On Windows, sending a mail looks up the configured server and port and nothing else, connects to that port only, and a mail from an unconnected client is accepted only after both succeeded.", "quantifier": "every client state, message, network and WinSock behaviour", "why_tests_cant": "It must hold for every name, port and history of changes to them.", "anchors": ["src/smtpclientbase.cpp: SMTPClientBase::initializeSessionWinSock"]}
{"id": "C87", "title": "Ownership of connections on Windows", "statement": "On Windows, whatever a program does with its clients (copies, moves, assignments, destruction), only open sockets and TLS objects are released, no two clients hold the same one, and what a client holds is open.", "quantifier": "every program with any number of clients, every network and WinSock behaviour", "why_tests_cant": "A double release shows only for particular histories of copies, moves and failures.", "anchors": ["src/smtpclientbase.cpp: SMTPClientBase copy/move constructors and assignments, cleanup", "src/securesmtpclientbase.cpp: SecureSMTPClientBase::cleanup"]}
{"id": "C88", "title": "A text too long to send is reported on Windows", "statement": "On Windows the library refuses to write a text longer than INT_MAX bytes. If that happens to any part of a mail, sending is not reported as a success.", "quantifier": "every program, client state, message, network and WinSock behaviour", "why_tests_cant": "The texts have more than two gigabytes, and the error must be passed on by every caller.", "anchors": ["src/smtpclientbase.cpp: SMTPClientBase::sendRawCommand, sendCommand, setMailHeaders", "src/securesmtpclientbase.cpp: SecureSMTPClientBase::sendCommand"]}
{"id": "C89", "title": "A mail reported as sent on Windows was accepted whole", "statement": "When sendMail returns 0 on Windows, the sender and every To, Cc and Bcc recipient were announced and accepted, the header and the body were written exactly as the message demands, nothing else was, and the server answered the end of data with 250.", "quantifier": "every program, client state, message, segmentation of the replies and WinSock behaviour", "why_tests_cant": "The Windows code writes and reads differently and the claim ranges over all dialogues.", "anchors": ["src/smtpclientbase.cpp: SMTPClientBase::sendMail, setMailRecipients, setMailHeaders, setMailBody"]}
{"id": "C90", "title": "Recipients on Windows", "statement": "On Windows, a refused recipient stops the mail before DATA and is reported, and what is written after DATA does not depend on the Bcc list, however sending ends.", "quantifier": "every program, client state, message, segmentation of the replies, failure and WinSock behaviour", "why_tests_cant": "It must hold at every point at which sending may fail.", "anchors": ["src/smtpclientbase.cpp: SMTPClientBase::setMailRecipients, addMailRecipients, setMailHeaders"]}
{"id": "C91", "title": "Authentication on Windows", "statement": "On Windows, what follows an AUTH command is the configured user name and password in the encoding of the mechanism, and a plain or forced-security client with a credential sends MAIL only after the server accepted it.", "quantifier": "every program, client state, credential, segmentation of the replies, failure and WinSock behaviour", "why_tests_cant": "All dialogues with the server and all failures would have to be tried.", "anchors": ["src/smtpclientbase.cpp: SMTPClientBase::authenticateClient, authenticateWithMethodPlain, authenticateWithMethodLogin, authenticateWithMethodXOAuth2"]}
{"id": "C92", "title": "Credentials stay secret on Windows", "statement": "On Windows, two programs that differ only in user names and passwords (of at most 10^9 bytes together) and meet the same network return the same results, leave the same objects and communication logs, and write the same bytes, except for the base64 text of the authentication lines.", "quantifier": "every pair of programs, credentials, network and WinSock behaviour", "why_tests_cant": "Secrecy compares all pairs of credentials in all runs, including those that fail.", "anchors": ["src/smtpclientbase.cpp: SMTPClientBase::authenticateClient, authenticateWithMethodPlain, addCommunicationLogItem, sendRawCommand"]}
{"id": "C93", "title": "The whole dialogue with a cooperating server on Windows", "statement": "On Windows, if every call succeeds, the server agrees with everything and the texts and credentials are within the documented sizes, sendMail returns 0 and the server was told exactly: the greeting, STARTTLS and EHLO again where the client demands it, the authentication in the preferred mechanism, then the sender, every recipient and the text of the message, and QUIT outside batch mode. If the server announces no mechanism the credential allows, the documented code is returned and nothing follows EHLO.", "quantifier": "every client, credential, message, server name, reply texts, kind of connection and mode", "why_tests_cant": "The order of everything said depends on kind of client, credential, announced mechanisms, mode and message together.", "anchors": ["src/smtpclientbase.cpp: SMTPClientBase::sendMail, initializeSessionWinSock, sendRawCommand", "src/opportunisticsecuresmtpclient.cpp: establishConnectionWithServer", "src/forcedsecuresmtpclient.cpp: establishConnectionWithServer"]}
{"id": "C94", "title": "A program behaves the same on both systems", "statement": "If the calls that only Windows makes succeed, sockets are created and connected at the first attempt and no text in clear has more than 2^31 - 1 bytes, a program built for Windows returns the same results, makes the same calls on its connections and leaves the same clients (communication logs included) as the same program built for POSIX.", "quantifier": "every program, network behaviour, TLS outcome and file contents", "why_tests_cant": "Tests run on one system at a time; equality of the two builds ranges over all programs and networks.", "anchors": ["src/smtpclientbase.cpp: #ifdef _WIN32 branches", "src/securesmtpclientbase.cpp: startTLSNegotiation"]}
{"id": "C95", "title": "Settings on Windows", "statement": "On Windows, after every program each client shows exactly the settings that the constructor, setters, copies and moves called for; sending and failures change none of them.", "quantifier": "every program, client, network and WinSock behaviour", "why_tests_cant": "Programs of any length and all failures would have to be tried.", "anchors": ["src/smtpclientbase.cpp: SMTPClientBase::SMTPClientBase, operator=, setServerName, setServerPort, setCommandTimeout, setCredentials, sendMail"]}
{"id": "C96", "title": "Waiting on Windows", "statement": "On Windows, the time slept in one sending operation is at most the configured timeout (at least one second) for each command or reply, and once more; and if everything received begins with a reply code, a timeout code is returned only after the configured number of seconds passed without a byte received or written. (The system call that connects is not bounded.)", "quantifier": "every client state, message, segmentation and timing of the replies, failure and WinSock behaviour", "why_tests_cant": "All timings of all replies and all failures would have to be tried.", "anchors": ["src/smtpclientbase.cpp: SMTPClientBase::getRawCommandReply, sendRawCommand, checkServerGreetings, sendMail", "src/securesmtpclientbase.cpp: getServerReply"]}
{"id": "C97", "title": "Threads do not touch each other's sockets", "statement": "When several threads of a process send mail at the same time, each with client objects of its own, then, however the system interleaves them and wherever each has come to, a thread configures, connects, reads, writes and closes only sockets that it has opened itself and not closed yet, and that no other thread has. The operating system is taken to hand out only descriptors that are not open. The same holds on Windows.", "quantifier": "every number of threads, every program of each thread, every schedule, every point at which the threads are stopped, every server and network behaviour", "why_tests_cant": "All schedules of all threads with all failures would have to be tried, among them those in which a descriptor is closed by one thread and handed to another at once.", "anchors": ["src/smtpclientbase.cpp: SMTPClientBase::cleanup, initializeSessionPOSIX, initializeSessionWinSock, sendRawCommand, getRawCommandReply", "src/smtpclientbase.cpp: copy and move constructors and assignments"]}
{"id": "C98", "title": "Threads connect to their own server", "statement": "When several threads of a process send mail at the same time, each with client objects of its own, every connection goes to the address of the server that the client of that thread was configured with.", "quantifier": "every number of threads, every program of each thread, every schedule, every point at which the threads are stopped, every server and network behaviour", "why_tests_cant": "The wrong address is used only if another thread looks up a name between two particular instructions; a test cannot force or exclude that schedule.", "anchors": ["src/smtpclientbase.cpp: SMTPClientBase::initializeSessionPOSIX (gethostbyname, memcpy of host->h_addr)"]}
{"id": "C99", "title": "Lack of memory does no damage", "statement": "If an allocation fails during an operation on a message, address, attachment, credential or client, the operation ends with std::bad_alloc, every object shows what it showed before and can be used and destroyed afterwards, and no memory is lost.", "quantifier": "every program, every operation, every allocation in it that fails", "why_tests_cant": "Each allocation of each operation in each state of the objects would have to be made to fail, and every later use of every object tried.", "anchors": ["src/messageaddress.cpp, src/attachment.cpp, src/credential.cpp, src/message.cpp: constructors, operator=, setters", "src/smtpclientbase.cpp: constructors, operator=, setServerName, setCredentials, initializeSession, setLastServerResponse, addCommunicationLogItem, extractAuthenticationOptions", "src/cpp/smtpclient.cpp: setCredentials"]}
{"id": "C100", "title": "Only 7-bit text with CRLF line ends is sent", "statement": "Everything a client sends is 7-bit text, whatever the attached files and the credentials contain, and the lines of a mail end in CRLF: no CR or LF stands alone (RFC 5321, 2.3.8 and 2.4).", "quantifier": "every program, message, file contents, credential and server behaviour", "why_tests_cant": "Binary files of every length and content, and every byte sequence in each text of a message, would have to be tried, with every way the transmission can be cut.", "anchors": ["src/smtpclientbase.cpp: sendMail, setMailHeaders, setMailBody, addMailBody, createAttachmentsText", "src/base64.cpp: Base64::Encode", "src/attachment.cpp: getBase64EncodedFile"]}
{"id": "C101", "title": "Lines stay within SMTP's limit", "statement": "No line of a mail sent by a client is longer than 1000 bytes, CRLF included (RFC 5321, 4.5.3.1.6), if the texts of the message respect that limit, whatever the size of the attached files.", "quantifier": "every message, every file size and content, every run of a transmission", "why_tests_cant": "Whether lines stay short depends on the file size; tests use files of a few bytes, and no bounded set of sizes shows the limit is kept.", "anchors": ["src/base64.cpp: Base64::Encode", "src/smtpclientbase.cpp: createAttachmentsText, addMailBody, setMailHeaders"]}
{"id": "C102", "title": "Exceptions mean a bad argument and leave no trace", "statement": "In a program whose texts stay far below the size of the address space, a client object raises an exception only from its constructor or from setServerName, only because the server name is null or blank, and the call then has no effect at all: nothing is created, changed, sent or closed. sendMail, copies, moves, the other setters and the destructors never raise one, whatever the server and the network do. (Lack of memory is C99.)", "quantifier": "every program on any number of clients, every message, every server and network behaviour, every moment", "why_tests_cant": "An exception could come out of any call of any history: the communication log grows with everything sent, received and failed, and destructors write to it. Tests see a few histories; a throwing destructor ends the process.", "anchors": ["src/smtpclientbase.cpp: SMTPClientBase constructor, setServerName, addCommunicationLogItem, sendMail", "src/smtpclient.cpp: SmtpClient::cleanup, ~SmtpClient", "src/securesmtpclientbase.cpp: cleanup"]}
{"id": "C103", "title": "What is received in clear cannot change what is said over TLS", "statement": "Let a client of a class that encrypts, not connected and without a TLS channel, send a mail. Everything it says and hears over TLS, with the authentication mechanism it chooses, is determined by the message, its settings, the files and what happens over TLS. Nothing received in clear before, including answers sent ahead of the TLS negotiation or after it on the socket, can change it: two calls that differ only in the clear part have the same TLS conversation as far as both get, and if both return after creating a channel they have the same conversation and agree on whether the mail was sent. In batch mode the same holds for every further mail on that connection.", "quantifier": "every message and, in batch mode, every sequence of messages, every client state without a connection, every pair of networks that agree on TLS and differ in any way in name lookup, connection, clear text, timing of clear text, failing calls", "why_tests_cant": "It compares two runs for every possible forged text in clear; a test can only try some injections, and those that matter are the ones nobody thought of.", "anchors": ["src/opportunisticsecuresmtpclient.cpp: establishConnectionWithServer, upgradeToSecureConnection", "src/securesmtpclientbase.cpp: startTLSNegotiation, getServerSecureIdentification, sendCommandWithFeedback, getServerReply, cleanup", "src/smtpclientbase.cpp: sendMail, authenticateClient, getRawCommandReply"]}
{"id": "C104", "title": "The communication log takes memory linear in the traffic", "statement": "Whatever the server and the network do, and through copies, moves, assignments and reconnections, the communication log of a client is at most linear in the size and number of the arguments passed to the library and of the blocks received, and the memory allocated for it exceeds its text by at most 4097 bytes.", "quantifier": "every program of client operations the process survives, every server, every failing system call, every client at its end", "why_tests_cant": "A log that grows faster shows only in programs that run long or against servers that say much; a test sees one length.", "anchors": ["src/smtpclientbase.cpp: addCommunicationLogItem, initializeSession, getCommunicationLog, copy constructor, operator="]}
{"id": "C105", "title": "A used client behaves like a new one", "statement": "What earlier calls leave in a client (the last answer of a server, the last error number, the mechanisms a server offered and, once there is no connection, the communication log) does not show in anything a program does later: two programs whose clients differ only in that get the same result from every call, do the same on the network and produce the same communication log for the next mail, for good. A client whose connection is gone can be replaced by a new client with the same settings, and sending mail changes no setting.", "quantifier": "every program on any number of clients, every pair of pasts of the clients, every server and network behaviour", "why_tests_cant": "Stale state shows only after particular histories: one failing or finished conversation, then another in which the stale value is read. All pairs of histories would have to be tried.", "anchors": ["src/smtpclientbase.cpp: sendMail, initializeSession, authenticateClient, extractAuthenticationOptions, setLastServerResponse, addCommunicationLogItem, copy and move operations", "src/opportunisticsecuresmtpclient.cpp: establishConnectionWithServer", "src/securesmtpclientbase.cpp: getServerSecureIdentification"]}
{"id": "C106", "title": "Error texts are only for the log", "statement": "The texts that the operating system and OpenSSL have for their error numbers and for the verification of certificates do not influence anything but the communication logs: with other texts (another language, another version of the libraries, texts of another length) every call of a program returns the same, the same is done on the network in the same order, and all settings and results kept by the clients are the same.", "quantifier": "every program on any number of clients, every pair of tables of texts, every server and network behaviour; texts and traffic far smaller than the address space", "why_tests_cant": "The texts pass through the buffer handling of the log, which grows and copies depending on their length; a mistake there shows only for particular lengths and histories. Tests run with the texts of one system.", "anchors": ["src/smtpclientbase.cpp: addCommunicationLogItem, setLastSocketErrNo, initializeSessionPOSIX, setSocketToNonBlockingPOSIX, setSocketToBlockingPOSIX", "src/securesmtpclientbase.cpp: startTLSNegotiation"]}
{"id": "C107", "title": "Accepting self-signed certificates changes nothing else", "statement": "setAcceptSelfSignedCert has an effect only on connections for which OpenSSL reports a self-signed server certificate (X509_V_ERR_DEPTH_ZERO_SELF_SIGNED_CERT): otherwise two programs that differ only in the values they give to this setting get the same result from every call, do the same on the network in the same order and find the same in their clients and communication logs. In particular the setting makes no expired, revoked or otherwise bad certificate acceptable.", "quantifier": "every program on any number of clients with any copies, moves and settings, every pair of choices for the setting, every server, network and TLS behaviour without that report; POSIX and Windows", "why_tests_cant": "It compares two runs of every program: a weakening of the check that depends on the setting shows only for one kind of bad certificate, after particular histories of copies and failures.", "anchors": ["src/securesmtpclientbase.h: setAcceptSelfSignedCert", "src/securesmtpclientbase.cpp: startTLSNegotiation, copy and move operations"]}
{"id": "C108", "title": "What a mail says does not decide its fate", "statement": "As long as no write to the network fails, the contents of mails never influence the client beyond what it writes and logs: two programs that differ only in the addresses, names, subjects, texts and files of their messages, with equally many recipients and attachments, get the same result from every call under the same server replies and network events, make the same connections, reads and waits in the same order, and leave their clients in the same state apart from the communication logs. The two error codes for a body that could not be written (one for short, one for long bodies) count as the same result.", "quantifier": "every pair of programs on any number of clients that differ only in message contents, every server reply and network and TLS behaviour without failing writes, every file system; total sizes within the counters of the communication log (the bound of C106)", "why_tests_cant": "It compares two runs of every program with arbitrary contents: a text that is mistaken for a reply, a command or an end marker shows only for particular texts, boundary lengths and histories.", "anchors": ["src/smtpclientbase.cpp: sendMail, setMailRecipients, setMailHeaders, setMailBody", "src/smtpclient.cpp and src/securesmtpclientbase.cpp: sendCommand, sendCommandWithFeedback"]}
