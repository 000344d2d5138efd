{"claims": [
  {"property": "C01", "status": "proved", "theorems": ["C01_encode_lossless"], "note": "Full."},
  {"property": "C02", "status": "proved", "theorems": ["C02_encode_layout"], "note": "Full."},
  {"property": "C03", "status": "partial", "theorems": ["C03_decode_encode", "C03_decode_encode_refuted"], "note": "C03_decode_encode says exactly when it holds (at most 49152 bytes); beyond that it is false (C03_decode_encode_refuted)."},
  {"property": "C04", "status": "proved", "theorems": ["C04_decode_total"], "note": "Full."},
  {"property": "C05", "status": "proved", "theorems": ["C05_trim", "C05_trim_left", "C05_trim_right", "C05_trim_defined"], "note": "Full."},
  {"property": "C06", "status": "proved", "theorems": ["C06_case_conversion"], "note": "Full."},
  {"property": "C07", "status": "partial", "theorems": ["C07_address_accepted", "C07_address_refused", "C07_address_refused_partial", "C07_non_ascii_refuted"], "note": "Acceptance is an equivalence for all texts. Missing: refusal of an address with a byte >= 128 can reach undefined behaviour instead of throwing (C07_non_ascii_refuted, C07_address_refused). Assumption: std::regex_match decides membership in the language; its stack use is not modelled."},
  {"property": "C08", "status": "proved", "theorems": ["C08_no_line_injection", "C08_commands_are_one_line"], "note": "Full as stated: MAIL FROM in the bracketed formats (first and third) and RCPT. The second format contains the display name, which is not checked."},
  {"property": "C09", "status": "proved", "theorems": ["C09_header_value"], "note": "Full."},
  {"property": "C10", "status": "partial", "theorems": ["C10_credential_constructor_partial", "C10_credential_history_partial", "C10_credential_always_valid", "C10_undefined_exactly", "C10_non_ascii_user_refuted"], "note": "The validity of the stored values holds for all calls. Missing: user names whose first or last visible byte is >= 128; those, and only those, reach undefined behaviour (C10_undefined_exactly, C10_non_ascii_user_refuted)."},
  {"property": "C11", "status": "partial", "theorems": ["C11_non_ascii_name_refuted", "C11_server_name_constructor_partial", "C11_server_name_setter_partial", "C11_undefined_exactly"], "note": "Missing: server names whose first or last visible byte is >= 128; those, and only those, reach undefined behaviour (C11_undefined_exactly, C11_non_ascii_name_refuted)."},
  {"property": "C12", "status": "proved", "theorems": ["C12_extension_exists", "C12_extension_unique", "C12_known_type", "C12_unknown_type", "C12_only_extension_matters"], "note": "Full."},
  {"property": "C13", "status": "partial", "theorems": ["C13_file_complete", "C13_file_prefix", "C13_large_file_refuted"], "note": "C13_file_complete: files below 4 GiB; C13_file_prefix: what larger files give. Unconditionally false (C13_large_file_refuted)."},
  {"property": "C14", "status": "proved", "theorems": ["C14_message_nonempty", "C14_message_specific", "C14_messages_distinct", "C14_message_generic"], "note": "Full."},
  {"property": "C15", "status": "partial", "theorems": ["C15_null_buffer", "C15_no_room", "C15_buffer", "C15_within_claim", "C15_zero_means_complete_refuted"], "note": "Missing: with maxLength = 1 the return value 0 is ambiguous (C15_zero_means_complete_refuted). Everything else holds."},
  {"property": "C16", "status": "proved", "theorems": ["C16_code_value", "C16_no_reply", "C16_short_reply", "C16_no_leading_number", "C16_no_digit", "C16_bounds"], "note": "Full."},
  {"property": "C17", "status": "proved", "theorems": ["C17_complete_terminated", "C17_complete_unterminated"], "note": "Full."},
  {"property": "C18", "status": "partial", "theorems": ["C18_mechanisms", "C18_no_mechanism", "C18_last_line", "C18_tls_last_mechanism_refuted"], "note": "For CRLF-terminated replies without NUL bytes. Missing: over TLS the client sees the reply without its last byte and can lose the last mechanism (C18_tls_last_mechanism_refuted)."},
  {"property": "C19", "status": "partial", "theorems": ["C19_starttls_partial", "C19_starttls_refuted"], "note": "Missing: STARTTLS on the last line ('250 STARTTLS') is not noticed (C19_starttls_refuted). C19_starttls_partial says exactly when it is."},
  {"property": "C20", "status": "partial", "theorems": ["C20_used_was_announced", "C20_not_supported_partial", "C20_none_supported_partial", "C20_code_zero_refuted", "C20_not_supported_refuted", "C20_none_applies_partial"], "note": "C20_used_was_announced: only announced, compatible mechanisms are used, in the order of preference. NOTSUPPORTED: C20_not_supported_partial (returned only if none applies, no AUTH line sent; replies orderly), C20_none_supported_partial (if none applies nothing more is sent, for every segmentation of the answer and every failing call, and the code is NOTSUPPORTED unless EHLO itself failed; replies orderly) and C20_none_applies_partial (NOTSUPPORTED is indeed returned when system calls succeed). Refuted without orderly replies: C20_code_zero_refuted (a piece of the answer that begins with the code 0 makes the client send the mail unauthenticated), C20_not_supported_refuted (a greeting -84 is returned as NOTSUPPORTED)."},
  {"property": "C21", "status": "proved", "theorems": ["C21_credential_lines"], "note": "Full."},
  {"property": "C22", "status": "proved", "theorems": ["C22_credentials_secret", "C22_log_secret"], "note": "Full: results, all client state except the credentials, all calls except the base64 text of authentication lines."},
  {"property": "C23", "status": "partial", "theorems": ["C23_no_credentials_in_clear_partial", "C23_credentials_in_clear_refuted"], "note": "Missing: a client that once met a server without STARTTLS (sticky flag), for which it is false (C23_credentials_in_clear_refuted)."},
  {"property": "C24", "status": "partial", "theorems": ["C24_encrypted_after_handshake_partial", "C24_encrypted_on_kept_connection_partial", "C24_mail_in_clear_refuted"], "note": "Missing: sticky flag (C24_mail_in_clear_refuted), and writes to descriptor 0 after the session was torn down."},
  {"property": "C25", "status": "partial", "theorems": ["C25_forced_client_partial", "C25_base_commands_refuted", "C25_recipient_on_descriptor_0_refuted"], "note": "Missing: setKeepUsingBaseSendCommands(true) (C25_base_commands_refuted); descriptor 0 after a failed write (C25_recipient_on_descriptor_0_refuted)."},
  {"property": "C26", "status": "proved", "theorems": ["C26_decision", "C26_unacceptable_session"], "note": "Full. The host name is not part of the decision (finding)."},
  {"property": "C27", "status": "partial", "theorems": ["C27_success_was_acknowledged_partial", "C27_unacknowledged_success_refuted"], "note": "Missing: replies '000' (C27_unacknowledged_success_refuted). 'standard' means that replies start with a code 1..999."},
  {"property": "C28", "status": "partial", "theorems": ["C28_refused_recipient_partial", "C28_refused_recipient_refuted"], "note": "Missing: replies '000' (C28_refused_recipient_refuted)."},
  {"property": "C29", "status": "partial", "theorems": ["C29_recipients_announced_partial", "C29_dialogue_partial", "C29_forgotten_recipients_refuted"], "note": "C29_recipients_announced_partial: an accepted sender and one RCPT per recipient, each answered 250, before DATA. C29_dialogue_partial: the whole dialogue is that of an accepted mail, when writing the To and Cc lines did not fail. Missing: replies '000' (C29_forgotten_recipients_refuted)."},
  {"property": "C30", "status": "proved", "theorems": ["C30_data_text", "C30_same_text", "C30_no_bcc_after_data", "C30_accepted_same_text"], "note": "Full. C30_data_text (every run, whatever fails): what is written after DATA is a beginning of a text determined by the message without its Bcc list; C30_same_text compares any two runs, C30_accepted_same_text two accepted mails byte for byte."},
  {"property": "C31", "status": "partial", "theorems": ["C31_new_connection_partial", "C31_long_reply_refuted", "C31_no_timeout_refuted", "C31_kept_connection_partial"], "note": "Missing: replies of 1024 bytes or more and timeout 0, for which it is false (C31_long_reply_refuted, C31_no_timeout_refuted); texts of 2^48 bytes or more; system calls must succeed (reliable)."},
  {"property": "C32", "status": "proved", "theorems": ["C32_nothing_lost", "C32_piece_sizes", "C32_short_body"], "note": "Full."},
  {"property": "C33", "status": "partial", "theorems": ["C33_multipart_partial", "C33_no_attachment_refuted", "C33_delimiter_in_text_refuted"], "note": "Stated on the generated MIME text. Missing: messages without attachment (no close delimiter: C33_no_attachment_refuted), texts containing the fixed delimiter (C33_delimiter_in_text_refuted), names and content ids with line breaks."},
  {"property": "C34", "status": "partial", "theorems": ["C34_transparency_partial", "C34_transparency_refuted"], "note": "Stated on the text between DATA and end of data, as an equivalence. Missing (false): lines that start with a dot (C34_transparency_refuted)."},
  {"property": "C35", "status": "partial", "theorems": ["C35_header_section_partial", "C35_header_injection_refuted"], "note": "Missing: display names and subjects with line breaks (C35_header_injection_refuted)."},
  {"property": "C36", "status": "partial", "theorems": ["C36_result_explained_partial", "C36_undocumented_one_refuted", "C36_wrong_stage_refuted"], "note": "Missing: the undocumented value 1 (C36_undocumented_one_refuted) and codes of a wrong stage (C36_wrong_stage_refuted)."},
  {"property": "C37", "status": "proved", "theorems": ["C37_log_never_overrun", "C37_entry_is_complete", "C37_log_fits", "C37_other_operations", "C68_transcript"], "note": "Full: no overrun, every append adds exactly its entry unless it throws (std::bad_alloc), the entries of a mail are given by C68_transcript, and other operations only carry logs along."},
  {"property": "C38", "status": "partial", "theorems": ["C38_receive_buffer_refuted", "C38_receive_buffer_partial"], "note": "Missing: a block of 1024 or more bytes (C38_receive_buffer_refuted); it is the only cause."},
  {"property": "C39", "status": "partial", "theorems": ["C39_reply_partial", "C39_reply_tls_partial", "C39_send_partial", "C39_blocking_greeting_refuted"], "note": "Missing: timeout 0 behaves like 1 in clear; the greeting is read with a blocking socket (C39_blocking_greeting_refuted)."},
  {"property": "C40", "status": "partial", "theorems": ["C40_normal_mode_partial", "C40_batch_mode_partial", "C40_no_quit_refuted", "C40_batch_closed_refuted", "C40_connection_reused", "C40_destroy"], "note": "Missing: '000' replies and failed writes of To/Cc lines, for which it is false (C40_no_quit_refuted, C40_batch_closed_refuted)."},
  {"property": "C41", "status": "proved", "theorems": ["C41_sockets", "C41_contexts", "C41_bios"], "note": "Full, given that the operating system never returns a descriptor that is still open (fresh); descriptor 0 stands for no socket."},
  {"property": "C42", "status": "partial", "theorems": ["C42_no_leak_partial", "C42_nothing_lost_partial", "C42_all_sent_partial", "C42_retry_refuted", "C42_copy_assign_refuted", "C42_move_assign_refuted"], "note": "Missing: a second attempt after a failed one, and assignment to a connected client, lose a descriptor (C42_*_refuted); descriptor 0 is never closed."},
  {"property": "C43", "status": "partial", "theorems": ["C43_only_descriptor_0_partial", "C43_silent_partial", "C43_destroy", "C43_next_recipient_refuted", "C43_ignored_header_refuted"], "note": "Missing: several recipients, To/Cc lines (C43_*_refuted): the client then writes to descriptor 0."},
  {"property": "C44", "status": "partial", "theorems": ["C44_no_opportunistic_partial", "C44_standard_partial", "C44_retries", "C44_cause", "C44_released_refuted", "C44_greeting_000_refuted", "C44_no_depth_suffices"], "note": "Missing: two situations in which cleanup recurses for ever (C44_released_refuted, C44_greeting_000_refuted)."},
  {"property": "C45", "status": "partial", "theorems": ["C45_failed_partial", "C45_reconnects", "C45_lost_partial", "C45_refused_recipient_refuted"], "note": "Missing: a refused recipient or DATA, where no RSET is sent (C45_refused_recipient_refuted); replies that are not standard."},
  {"property": "C46", "status": "partial", "theorems": ["C46_copy", "C46_copy_assign", "C46_move", "C46_move_assign", "C46_self", "C46_copy_succeeds_partial", "C46_copy_assign_succeeds_partial", "C46_move_succeeds", "C46_move_assign_succeeds", "C46_moved_from_refuted"], "note": "Missing: copying a client that was moved from (C46_moved_from_refuted)."},
  {"property": "C47", "status": "partial", "theorems": ["C47_copy_construction", "C47_copy_defined", "C47_move_construction", "C47_move_assignment", "C47_move_assignment_defined", "C47_copy_assignment_partial", "C47_copy_assignment_defined", "C47_sender_refuted"], "note": "Missing: copy assignment keeps the old sender (C47_sender_refuted)."},
  {"property": "C48", "status": "partial", "theorems": ["C48_no_memory_error_partial", "C48_no_leak_partial", "C48_setContentId_refuted", "C48_setUsername_refuted"], "note": "Missing: setContentId leaks (C48_setContentId_refuted); setUsername(getUsername()) (C48_setUsername_refuted)."},
  {"property": "C49", "status": "partial", "theorems": ["C49_no_memory_error_partial", "C49_assignment_refuted", "C49_null_subject_refuted"], "note": "Missing: assignment that removes recipients, null subject or body (C49_*_refuted)."},
  {"property": "C50", "status": "partial", "theorems": ["C50_address", "C50_attachment", "C50_credential", "C50_message", "C50_same_run_secure", "C50_same_run_partial", "C50_recommended_method_refuted", "C50_setUsername", "C50_setPassword", "C50_setContentId", "C50_address_shown", "C50_encoded_file"], "note": "Missing: cpp::SmtpClient drops the recommended method (C50_recommended_method_refuted)."},
  {"property": "C51", "status": "partial", "theorems": ["C51_no_memory_error_partial", "C51_credentials_readable_partial", "C51_dangling_refuted", "C51_double_free_refuted"], "note": "Missing: setCredentials on a client sharing its credential with a copy (C51_*_refuted)."},
  {"property": "C52", "status": "proved", "theorems": ["C52_target", "C52_connects"], "note": "The exact port below 65536, the port modulo 65536 otherwise, as stated."},
  {"property": "C53", "status": "partial", "theorems": ["C53_session_code_partial", "C53_send_code_partial", "C53_fcntl_refuted", "C53_fcntl_ignored_refuted", "C53_interrupted_refuted"], "note": "Missing: fcntl failures (C53_fcntl_refuted, C53_fcntl_ignored_refuted) and EINTR (C53_interrupted_refuted)."},
  {"property": "C54", "status": "partial", "theorems": ["C54_no_authentication_offered_refuted", "C54_crash_needs_missing_auth_partial"], "note": "False: C54_no_authentication_offered_refuted. The partial theorem says that the crash happens only in that situation."},
  {"property": "C55", "status": "partial", "theorems": ["C55_sender_formats_partial", "C55_sender_not_accepted_refuted"], "note": "Missing: replies '000' (C55_sender_not_accepted_refuted)."},
  {"property": "C56", "status": "partial", "theorems": ["C56_unreadable_is_empty_partial", "C56_unreadable_attachment_refuted"], "note": "False: C56_unreadable_attachment_refuted. The partial theorem says what is sent instead."},
  {"property": "C57", "status": "partial", "theorems": ["C57_all_transmitted_partial", "C57_short_write_refuted"], "note": "Missing: short writes (C57_short_write_refuted); replies that are not standard."},
  {"property": "C58", "status": "partial", "theorems": ["C58_endpoint_fits_partial", "C58_endpoint_fits_any_port_partial", "C58_long_name_refuted"], "note": "Missing: server names longer than 1017 characters, or 1012 with ports above 65535 (C58_long_name_refuted)."},
  {"property": "C59", "status": "partial", "theorems": ["C59_segments_partial", "C59_segments_refuted", "C59_tls_segments_refuted"], "note": "Missing: pauses inside a reply, TLS, the greeting (C59_*_refuted)."},
  {"property": "C60", "status": "partial", "theorems": ["C60_address_syntax_refuted"], "note": "False: C60_address_syntax_refuted."},
  {"property": "C61", "status": "proved", "theorems": ["C61_causes_of_undefined_behaviour"], "note": "Full."},
  {"property": "C62", "status": "partial", "theorems": ["C62_mail_needs_authentication_partial", "C62_opportunistic_unauthenticated_refuted", "C62_code_zero_refuted"], "note": "Missing: the opportunistic client without STARTTLS, and answers to EHLO of which a piece begins with the code 0; it is false for both (C62_opportunistic_unauthenticated_refuted, C62_code_zero_refuted)."},
  {"property": "C63", "status": "partial", "theorems": ["C63_no_memory_error_partial", "C63_no_leak_partial", "C63_setServerName_refuted", "C63_setCredentials_refuted", "C63_assignment_refuted", "C63_ehlo_refuted", "C63_cpp_refuted"], "note": "Missing: self-aliasing setter arguments, leaks by copy assignment, of the cpp credential, and of authentication options when the server announces its mechanisms after the first line of its EHLO answer (C63_*_refuted)."},
  {"property": "C64", "status": "partial", "theorems": ["C64_independent_partial", "C64_shared_credential_refuted"], "note": "For histories that keep the rules of 'careful'. Missing (false): setCredentials on a cpp client destroys the credential its copy still shows (C64_shared_credential_refuted)."},
  {"property": "C65", "status": "proved", "theorems": ["C65_single_recipient", "C65_single_recipient_sent", "C65_constructor"], "note": "Full: after every program, careful or not. A null subject or body is shown as the empty text."},
  {"property": "C66", "status": "proved", "theorems": ["C66_error_message"], "note": "Full."},
  {"property": "C67", "status": "proved", "theorems": ["C67_settings"], "note": "Full."},
  {"property": "C68", "status": "proved", "theorems": ["C68_transcript"], "note": "Full. A call that throws, blocks or is killed may stop in the middle of a step."},
  {"property": "C69", "status": "partial", "theorems": ["C69_values_partial", "C69_shared_credential_refuted"], "note": "For histories that keep the rules of 'careful'; the others reach the memory errors of C48-C51 and C63 (C69_shared_credential_refuted). The specification records one deviation of the code: assigning a message leaves its sender as it was (C47_sender_refuted)."},
  {"property": "C70", "status": "partial", "theorems": ["C70_as_values", "C70_no_memory_error_partial", "C70_moved_from_refuted"], "note": "Missing: copying or assigning from an object whose content was moved away reads a null pointer (C70_moved_from_refuted)."},
  {"property": "C71", "status": "partial", "theorems": ["C71_memory", "C71_no_leak_partial", "C71_string_interface_refuted"], "note": "Missing: getErrorMessage, getErrorMessage_r and getBase64EncodedFile of the std::string interface lose one block per call (C71_string_interface_refuted; C71_memory counts them)."},
  {"property": "C72", "status": "partial", "theorems": ["C72_wrong_host_refuted", "C72_names_ignored", "C72_any_certificate"], "note": "Fails: the name is never asked for. C72_names_ignored: no program behaves differently if every certificate is for another name; C72_any_certificate: every write over TLS would reach such a server; C72_wrong_host_refuted: a complete run."},
  {"property": "C73", "status": "partial", "theorems": ["C73_timeout_means_silence_partial", "C73_answer_is_timeout_refuted", "C73_signal_is_timeout_refuted", "C73_zero_timeout_refuted"], "note": "C73_timeout_means_silence_partial: for answers that begin with three digits and when no signal interrupts the connection attempt. Missing (false): an answer shorter than a code is reported as a timeout at once (C73_answer_is_timeout_refuted), so is a connection attempt interrupted by a signal (C73_signal_is_timeout_refuted); with timeout 0 every greeting is late (C73_zero_timeout_refuted)."},
  {"property": "C74", "status": "proved", "theorems": ["C74_same_dialogue", "C74_each_operation"], "note": "C74_same_dialogue for whole programs, C74_each_operation for single operations after any program. The calls compared are all but the name look-up and the switching of the socket mode."},
  {"property": "C75", "status": "proved", "theorems": ["C75_release_needs_reference"], "note": "C75_release_needs_reference, for all programs including moves, assignments and failing releases."},
  {"property": "C76", "status": "partial", "theorems": ["C76_all_released_partial", "C76_retry_refuted", "C76_assigned_refuted"], "note": "C76_all_released_partial holds for programs that do not send with a client that had to connect for a message and failed to send it, that was moved from or assigned to. It fails for the others: C76_retry_refuted, C76_assigned_refuted."},
  {"property": "C77", "status": "partial", "theorems": ["C77_data_need_reference_partial", "C77_moved_refuted", "C77_close_refuted"], "note": "C77_data_need_reference_partial covers data exchanged by programs without moves. It fails after a move (C77_moved_refuted) and for closing after a refused connection (C77_close_refuted)."},
  {"property": "C78", "status": "proved", "theorems": ["C78_failed_start"], "note": "C78_failed_start."},
  {"property": "C79", "status": "partial", "theorems": ["C79_store_closed_partial", "C79_store_refuted", "C79_addresses_refuted"], "note": "C79_store_closed_partial covers the stores of messages that were sent. It fails for stores when the handshake fails (C79_store_refuted) and for the address lists always (C79_addresses_refuted)."},
  {"property": "C80", "status": "partial", "theorems": ["C80_sends_block_partial", "C80_tls_blocks_partial", "C80_replies_poll_partial", "C80_left_blocking_partial", "C80_greeting_refuted", "C80_tls_reply_refuted", "C80_failed_switch_refuted", "C80_windows_blocks_partial", "C80_windows_replies_poll_partial", "C80_windows_left_blocking_partial", "C80_windows_failed_switch_refuted"], "note": "Under the condition that no fcntl call fails and no open descriptor is handed out again. It fails when a switch back fails (C80_failed_switch_refuted), for the greeting (C80_greeting_refuted) and for replies over TLS (C80_tls_reply_refuted), which are awaited in blocking mode. On Windows (C80_windows_*) only a failing ioctlsocket is excluded; C80_windows_failed_switch_refuted shows why."},
  {"property": "C81", "status": "proved", "theorems": ["C81_comparison"], "note": "Full."},
  {"property": "C82", "status": "proved", "theorems": ["C82_causes_on_windows", "C82_no_select_no_host_buffer"], "note": "Full."},
  {"property": "C83", "status": "partial", "theorems": ["C83_log_without_reassignment_partial", "C83_log_while_cleanup_succeeds_partial", "C83_moved_from_refuted", "C83_assigned_refuted"], "note": "Proved when no client is moved from or assigned to, and when no WSACleanup fails. It fails when both happen: C83_moved_from_refuted (null log), C83_assigned_refuted (write behind the end of the log)."},
  {"property": "C84", "status": "partial", "theorems": ["C84_no_credentials_in_clear_partial", "C84_encrypted_after_handshake_partial", "C84_encrypted_on_kept_connection_partial", "C84_forced_client_partial", "C84_credentials_in_clear_refuted", "C84_base_commands_refuted", "C84_recipient_on_descriptor_0_refuted"], "note": "As C23 - C25: the three refutations of the POSIX build hold on Windows too (C84_credentials_in_clear_refuted, C84_base_commands_refuted, C84_recipient_on_descriptor_0_refuted)."},
  {"property": "C85", "status": "proved", "theorems": ["C85_decision_on_windows", "C85_unacceptable_session"], "note": "Full. The host name is not checked (as in C26)."},
  {"property": "C86", "status": "proved", "theorems": ["C86_configured_address", "C86_connected"], "note": "Full. A port above 65535 is taken modulo 65536, as htons does."},
  {"property": "C87", "status": "proved", "theorems": ["C87_sockets_on_windows", "C87_contexts_on_windows", "C87_bios_on_windows"], "note": "Full, under the same assumption as C41: the system does not hand out an open descriptor again."},
  {"property": "C88", "status": "partial", "theorems": ["C88_too_long_reported_partial", "C88_to_field_refuted"], "note": "Missing: To and Cc fields, whose errors the library ignores (as in C43), and servers that answer with a code below 200. Refuted in full: C88_to_field_refuted sends a message whose To field is longer than INT_MAX bytes; the field is left out, the server gets the rest, and 0 is returned. The example has a user name of INT_MAX bytes."},
  {"property": "C89", "status": "partial", "theorems": ["C89_acknowledged_partial", "C89_recipients_announced_partial", "C89_dialogue_partial", "C89_all_transmitted_partial", "C89_header_section_partial", "C89_unacknowledged_success_refuted"], "note": "Missing: replies that begin with \"000\" (C89_unacknowledged_success_refuted), To and Cc fields that are too long or could not be written, a failing WSACleanup."},
  {"property": "C90", "status": "partial", "theorems": ["C90_refused_recipient_partial", "C90_no_bcc_after_data_partial", "C90_refused_recipient_refuted"], "note": "Missing: runs in which a call that only Windows makes fails, and replies '000', for which it is false (C90_refused_recipient_refuted)."},
  {"property": "C91", "status": "partial", "theorems": ["C91_credential_lines_partial", "C91_mail_needs_authentication_partial", "C91_opportunistic_unauthenticated_refuted"], "note": "Missing: runs in which a call that only Windows makes fails; and what C62 excludes, where it is false (C91_opportunistic_unauthenticated_refuted)."},
  {"property": "C92", "status": "proved", "theorems": ["C92_credentials_secret", "C92_log_secret"], "note": "Full as stated. The bound is needed: C92_bound_needed."},
  {"property": "C93", "status": "partial", "theorems": ["C93_new_connection_partial", "C93_kept_connection_partial", "C93_none_applies_partial", "C93_long_reply_refuted"], "note": "Missing: replies of 1024 bytes or more (false: C93_long_reply_refuted), timeout 0, credentials above 10^9 bytes, texts above INT_MAX bytes."},
  {"property": "C94", "status": "proved", "theorems": ["C94_same_as_posix"], "note": "Full as stated. The condition on connect() is needed: C94_condition_needed. The converse direction is C74."},
  {"property": "C95", "status": "proved", "theorems": ["C95_settings_on_windows"], "note": "Full as stated."},
  {"property": "C96", "status": "proved", "theorems": ["C96_waiting_on_windows", "C96_timeout_means_silence_on_windows"], "note": "Full as stated. The condition on replies is needed: C96_codes_needed. The time spent in connect() is that of the system and not modelled."},
  {"property": "C97", "status": "partial", "theorems": ["C97_threads_partial", "C97_threads_on_windows_partial", "C97_tls", "C97_tls_on_windows", "C97_descriptor_0_refuted"], "note": "Proved for all descriptors but 0 (C97_threads_partial, C97_threads_on_windows_partial). For 0 it is false: a client whose write failed goes on with descriptor 0, which can be the socket of another thread (C97_descriptor_0_refuted). It covers TLS: every action on a TLS connection is about exactly one socket, the one the thread created the BIO on (C97_tls, C97_tls_on_windows)."},
  {"property": "C98", "status": "partial", "theorems": ["C98_wrong_server_refuted", "C98_undisturbed_partial", "C98_one_thread_partial"], "note": "False in general: C98_wrong_server_refuted (another thread looks up its server between gethostbyname and the copying of the address). Holds when no lookup falls into that gap (C98_undisturbed_partial), in particular with one thread (C98_one_thread_partial). getaddrinfo, used on Windows, returns memory of its own."},
  {"property": "C99", "status": "partial", "theorems": ["C99_enough_memory", "C99_no_memory_error_partial", "C99_readable_partial", "C99_unchanged_partial", "C99_others_unchanged", "C99_no_leak_partial", "C99_destruction_refuted", "C99_move_refuted", "C99_leak_refuted"], "note": "False in general. C99_destruction_refuted: copy assignment (six classes), setUsername, setPassword, setServerName, setCredentials, starting a session and storing an answer free before they allocate, and leave a pointer that the destructor frees again. C99_move_refuted: the noexcept move assignment of messages allocates (std::terminate). C99_leak_refuted: a constructor loses what it allocated. Holds for the other operations (C99_no_memory_error_partial, C99_readable_partial, C99_unchanged_partial), for the objects an operation does not work on (C99_others_unchanged) and, as to leaks, when only operations with one allocation fail (C99_no_leak_partial)."},
  {"property": "C100", "status": "partial", "theorems": ["C100_seven_bit_partial", "C100_line_breaks_partial", "C100_eight_bit_refuted", "C100_bare_line_feed_refuted"], "note": "False in general: 8-bit bodies and bare LF are sent as they are (C100_eight_bit_refuted, C100_bare_line_feed_refuted). Holds for messages whose texts are 7-bit and properly broken, whatever the files, credentials and servers."},
  {"property": "C101", "status": "partial", "theorems": ["C101_lines_partial", "C101_run_partial", "C101_long_line_refuted"], "note": "False: base64 text is broken every 64 KiB, so a file of 748 bytes gives a line above the limit (C101_long_line_refuted). C101_lines_partial says exactly when the limit is kept (files of at most 747 bytes); C101_run_partial carries it to every run, with 64 KiB as a bound for all files."},
  {"property": "C102", "status": "proved", "theorems": ["C102_only_bad_names", "C102_other_calls", "C102_bad_names"], "note": "Proved for programs whose texts are far below 2^62 bytes (modest). C102_bad_names, the converse, excludes names whose outermost visible bytes are not ASCII, which are undefined behaviour (C11)."},
  {"property": "C103", "status": "proved", "theorems": ["C103_clear_text_cannot_change", "C103_same_conversation", "C103_same_connection"], "note": "The client must not have a channel left over from a failed negotiation: with one, the first EHLO goes over it, and that case is not covered. Bytes that arrive ahead of the negotiation and were not read are left to OpenSSL, which is not modelled; the model's TLS reads never return them."},
  {"property": "C104", "status": "proved", "theorems": ["C104_log_length", "C104_log_memory"], "note": "The bound on the length is for programs far smaller than the address space (modest) and counts the whole program, although a reconnection empties the log."},
  {"property": "C105", "status": "partial", "theorems": ["C105_past", "C105_reuse", "C105_log", "C105_new", "C105_settings", "C105_opportunistic_refuted", "C105_windows_partial", "C105_windows_reuse_partial", "C105_windows_assignment_refuted"], "note": "On Windows it is proved for programs without assignments between clients (C105_windows_partial); with one it fails if WSACleanup fails (C105_windows_assignment_refuted). Fails for opportunistic clients in one point: a server without STARTTLS leaves a flag behind that keeps later connections in clear (C105_opportunistic_refuted); C105_settings shows that nothing else changes. Equality is of results, events and logs; the last answer and the last error number have no public getter."},
  {"property": "C106", "status": "partial", "theorems": ["C106_texts_only_in_log", "C106_windows_partial", "C106_windows_assignment_refuted"], "note": "Full for POSIX; both tables of texts must be modest (the log of the program fits the address space), otherwise std::bad_alloc is raised, which depends on the length of the texts. Windows (C106_windows_partial): programs with safe logs (C83) and without exceptions. It is false for assignments when WSACleanup fails (C106_windows_assignment_refuted): the copied log is overrun or not depending on the length of a text."},
  {"property": "C107", "status": "proved", "theorems": ["C107_only_self_signed", "C107_windows"], "note": "Full. What OpenSSL reports for a certificate is an input of the model."},
  {"property": "C108", "status": "proved", "theorems": ["C108_contents_do_not_decide"], "note": "Full on POSIX as stated. The two body codes are counted as one because, from reading the code, a secure client without a TLS stream fails at the body with a code that depends on its length; no theorem shows such a run. Not yet tested against wrong programs."}
]}
