c("C01", "partial", "c01_chunked_round_trip_partial c01_any_bytes_partial c01_full_refuted", "Every split into writes, every transport behaviour without write errors, every fragmentation, every trailing data. A message with a NUL is read to its end but received only up to the NUL (c01_any_bytes_partial, c01_full_refuted). Single writes are below 2^32-1024 bytes; above it is false (c06_huge_write_refuted).")
c("C02", "partial", "c02_eom_round_trip_partial c02_eom_round_trip_refuted c02_eom_sender", "The full statement is false: a payload ending in a beginning of the marker is never delivered. Proved for payloads not ending in ']' or ']]>'.")
c("C03", "partial", "c03_messages_in_sequence_partial c03_any_bytes_partial c03_full_refuted", "Lists of messages of any length; as C01.")
c("C04", "partial", "c04_receive_safe_alloc_partial c04_receive_safe_stream_partial c04_receive_safe_refuted c04_receive_uninit_refuted", "The full statement is false (chunk sizes -1 and above 2^32). Proved for bounded allocators, and for streams without '-' and ten digits in a row.")
c("C05", "partial", "c05_accepts_rfc6242_partial c05_delivered_bytes_partial c05_largest_chunk_refuted c05_rejects_others_refuted", "Completeness proved except chunk size 2^32-1 (refused). Soundness is false (strtoul leniency, skipped bytes); what any delivered message must look like is proved.")
c("C06", "partial", "c06_output_partial c06_huge_write_refuted c06_write_error_refuted", "Proved for single writes below 2^32-1024 bytes and transports without write errors; both conditions are shown necessary.")
c("C07", "proved", "c07_escaping c07_denotes_one_text", "Every text, every fill level.")
c("C08", "partial", "c08_server_partial c08_client_partial c08_both_peers c08_any_hello_partial c08_versions_refuted c08_blank_capability_refuted", "The full statement is false: beginnings of the base URIs count as base capabilities, and a hello without capabilities is accepted by the server. Proved for every list without such beginnings, in every order; two peers using the library always agree on 1.1.")
c("C09", "proved", "c09_client c09_server", "Every message tree. With several session-id elements the client uses the last.")
c("C10", "partial", "c10_server c10_client_partial c10_client_running_refuted", "Server side complete. A connecting client may be handed a session that became invalid while its context was filled; running status proved otherwise.")
c("C11", "partial", "c11_ids_unique_partial c11_wrap_refuted", "Every history of fewer than 2^32 accept calls (failed handshakes consume ids too); beyond that the only accepted session can have id 0, so the statement counting accepted sessions is false.")
c("C12", "partial", "c12_base c12_user_partial c12_user_first_partial c12_user_refuted c12_withdefaults_absent c12_withdefaults_present_partial c12_withdefaults_set c12_withdefaults_announced_partial c12_withdefaults_refuted", "The full statement is false: user capabilities differing only in parameters are dropped; with-defaults is omitted without additional modes, and may list modes not configured.")
c("C49", "partial", "c49_hello_safe_partial c49_hello_safe_refuted", "The full statement is false: elements known to the context are read as opaque nodes; a server hello without capabilities aborts the client. Proved for trees of opaque nodes.")
c("C13", "partial", "c13_mutex_partial c13_fifo_partial c13_progress_partial c13_no_lost_wakeup_partial c13_results_partial c13_mutex_refuted", "Every queue size 1..255, every interleaving, provided fewer than 256 others queue while the first in line stays there. Without that proviso mutual exclusion is false (ids are bytes and wrap): refuted with a witness run.")
c("C14", "partial", "c14_holds_partial c14_each_once_partial c14_results_partial c14_codes c14_refuted c14_limit_refuted", "Every history of add, delete and clear, provided no allocation of the array fails and fewer than 65535 sessions are held on add. Without either proviso the structure is corrupted (refuted with witnesses).")
c("C15", "partial", "c15_round c15_served_partial c15_refuted", "Each round looks at every session once, starting after the last served one; a session with pending data is returned within as many calls as there are sessions, provided every call returns a session. A session whose RPC lock fails starves the ones after it (refuted).")
c("C16", "partial", "c16_one_reply_partial c16_no_id_partial c16_at_most_one c16_silent_refuted c16_suicide_refuted c16_foreign_refuted", "At most one reply per call for all behaviours; exactly one, with all attributes of the request, if the writer delivers it and the callback does not end its own session. Reply lost silently on a transport error, and foreign message-id attribute accepted: refuted.")
c("C17", "partial", "c17_only_partial c17_never c17_terminated_partial c17_callhome c17_early_refuted c17_arrival_refuted c17_unlimited_refuted", "The poll compares the end of its own timeout, not the current time, with the last activity: sessions are ended early by up to the poll timeout (refuted for every idle timeout). Call Home sessions are exact to the second.")
c("C18", "partial", "c18_reason c18_reason_history c18_report_partial c18_report_refuted", "Reasons: every change of a reason has its cause, for all histories. Reporting: closed never, timeout always an error; killed is reported as error and a drop met while replying is not (refuted).")
c("C20", "partial", "c20_never_processed c20_answered_partial c20_ended_partial c20_absent_refuted c20_v10_refuted", "No operation runs unless a valid request was read. Invalid messages are answered, or end the session if the answer cannot be written. False: after a malformed frame the code goes on with an absent request; on 1.0 unparsable messages are neither answered nor end the session.")
c("C19", "partial", "c19_mutex_partial c19_no_abort_partial c19_timeout c19_no_lost_wakeup_partial c19_foreign_unlock_refuted c19_unused_unlock_refuted c19_lost_wakeup_refuted", "Any number of threads, every interleaving. Mutual exclusion if only holders unlock; a failed lock call changes nothing. An unlock by another thread is not refused (refuted); a timed-out unlock can lose the wake-up (refuted).")
c("C44", "partial", "c44_deadline c44_remaining_partial c44_expired_partial c44_wrap_refuted c44_poll_within c44_poll_plain_partial c44_early_refuted c44_event_lost_refuted c44_msgs_lock_refuted c44_loop_partial c44_loop_ends_partial", "Deadlines exact; remaining time exact to the millisecond within 2^31 ms (wraps beyond, refuted). nc_poll ends in time for every interruption pattern, but too early or losing an event after interruptions (refuted); the client message lock lengthens the timeout (refuted for every wait).")
c("C46", "partial", "c46_status_partial c46_suffix_partial c46_zero c46_wrap_refuted", "Every sequence of calls with fewer than 2^32 increments; beyond, the counter wraps (refuted).")
c("C21", "partial", "c21_on_the_wire_partial c21_increasing_partial c21_failed_send_partial c21_concurrent_partial c21_undisturbed_partial c21_failed_send_refuted c21_reported_id_refuted", "Every sequence of sends with arbitrary failures, every interleaving of threads; fewer than 2^64 sends. False as stated: a send failing in the final flush uses up an id (the session is then dead), and with two threads the id reported can be that of the other thread.")
c("C22", "partial", "c22_msgid_partial c22_reply_message c22_msgid_refuted", "Every reply and session state. False as stated: an id followed by other characters is accepted.")
c("C23", "partial", "c23_order_partial c23_lost_refuted", "Every interleaving of calls and every input; equality if no call returned an error. A failed allocation loses a message (refuted).")
c("C24", "partial", "c24_type_partial c24_comment_refuted c24_prefix_refuted c24_longer_name_refuted", "Every prolog with ordinary comments. False as stated: comments starting with >, namespace prefixes, longer names.")
c("C25", "partial", "c25_defined_partial c25_version10 c25_malformed_refuted", "Always on 1.0 sessions; on 1.1 sessions four bytes from the server crash the client (refuted).")
c("C26", "partial", "c26_lookup_partial c26_lookup_refuted", "Every list. False as stated: a capability that merely starts with the one asked for is returned.")
c("C27", "partial", "c27_others_kept c27_none_left_partial c27_repeated c27_left_over_refuted", "Other binds are always kept; with several matching binds one call leaves some (refuted), repeating the call removes all.")
c("C28", "partial", "c28_single_revision_partial c28_oldest_partial c28_newest_refuted c28_no_revision_refuted", "The claim is false: the oldest revision is asked for. True when one revision is announced.")
c("C47", "partial", "c47_modules_partial c47_server_to_client_partial c47_order_refuted c47_invented_refuted", "Every list of announcements with parameters in the usual order; composed with the server side for every module. Other orders lose the revision (refuted).")
c("C50", "partial", "c50_yl_terminated_partial c50_yl_terminated_refuted", "Holds unless the notification modules are added by the client; then the list has no terminator (refuted for all such inputs).")
c("C29", "proved", "c29_identity c29_fixed c29_unconfigured c29_cycle_refuted", "Every sequence of messages: one name, all successes for it with valid credentials, never changed; unconfigured users never succeed. Endpoints referring to each other make the lookup not end (that run gives no outcome).")
c("C30", "partial", "c30_all_methods_partial c30_single_partial c30_repeated_refuted", "False: a method succeeding twice counts as two (refuted). True if no method succeeded twice, in particular with one method; every success is with a configured method.")
c("C31", "proved", "c31_no_channel", "Every sequence of messages, for channels and the netconf subsystem.")
c("C32", "proved", "c32_password c32_system_password", "Every stored string, given password and crypt function; system users with expiry.")
c("C33", "partial", "c33_key_partial c33_key_defined c33_signature_partial c33_signature_refuted c33_short_refuted c33_cut_refuted c33_short_name_refuted", "Keys whose encoding is well formed, signature states none and valid. Malformed keys are read past their end (refuted); any other signature state is accepted (refuted).")
c("C34", "partial", "c34_expansion_partial c34_rejection_partial c34_no_overflow c34_bad_token_refuted c34_lone_percent_refuted", "Never out of bounds and exact for templates with known tokens; unknown tokens and a final percent are not rejected (refuted).")
c("C35", "proved", "c35_ring c35_any_history c35_accept_refuted", "Every history of channel openings, status changes and frees through any member of the ring, at pointer level; starting sessions are freed with the last other one.")
c("C48", "partial", "c48_keys_general c48_keys_partial c48_count_refuted c48_blanks_refuted c48_leading_blank_refuted c48_last_line_refuted", "Exact result for every file; equals the claim for files of plain lines with fewer than 65536 keys. Blanks, last line, and number of keys refute the general claim.")
c("C36", "partial", "c36_first_partial c36_refused c36_nul_refuted", "Every entry list, chain and referenced endpoint whose certificates can be read, whose fingerprints have the form algorithm:digits, and whose names have no NUL byte (for which the claim is refuted).")
c("C37", "partial", "c37_common_name_partial c37_no_common_name_partial c37_injected_refuted c37_slash_refuted c37_mbedtls_refuted", "Subjects with no CN= in an earlier attribute and no slash in the CN; both conditions are necessary (refuted without). With mbedTLS the claim fails for every subject with an attribute after the CN.")
c("C38", "partial", "c38_trusted_partial c38_own_errors c38_faulty c38_mbedtls c38_unknown_issuer_refuted c38_expired_authority_refuted c38_undecodable_refuted", "Every sequence of callbacks. Errors at depth above 0 other than a self-signed certificate are ignored with OpenSSL (refuted); with mbedTLS the claim is proved.")
c("C39", "partial", "c39_exact c39_faithful c39_fingerprint c39_empty_refuted c39_short_fingerprint_refuted", "Every digest of at least one byte. A configured fingerprint without digits is read past its end (refuted).")
c("C51", "partial", "c51_client_name_partial c51_authority_refuted c51_mbedtls_refuted", "Holds when entries taking names from certificates have fingerprints of no other certificate of the chain; otherwise the name is the authority's (refuted).")
c("C40", "partial", "c40_rotation_partial c40_fixed c40_in_bounds c40_carried_refuted c40_lowered_refuted", "Every history of failures, connections, losses and endpoint reconfigurations in which connections succeed at the first attempt on an endpoint and the attempt limit is fixed (1-255). A success after failed attempts keeps the count, and lowering the limit below the count is missed (refuted).")
c("C41", "partial", "c41_anchor_partial c41_no_anchor c41_anchor_refuted c41_future_refuted c41_zero_refuted", "Exact characterisation of when the anchored time is right: at aligned moments and half way between; otherwise refuted. Without an anchor the wait is one period.")
c("C52", "proved", "c52_idle", "Every sequence of wake-ups; the clock, the session and the client at each are arbitrary.")
c("C42", "partial", "c42_first_partial c42_next_partial c42_all_sent_partial c42_daily c42_default c42_wakeup c42_wakeup_late c42_unsorted_refuted c42_late_refuted c42_twice_refuted", "For every table whose intervals start strictly one after the other (the default one always does), in the calendar of UTC: first and next times are the earliest scheduled ones, nothing is skipped, the expiration is passed, then daily; the thread wakes for the earliest. The order of the table is not checked (refuted), and a late thread computes times in the past (refuted).")
c("C53", "partial", "c53_stop_partial c53_change_partial c53_one_thread_partial c53_stop_refuted c53_change_refuted c53_intervals_refuted c53_two_threads_refuted c53_failed_start_refuted", "Holds for stops and changes that come while the thread waits and for starts after the earlier thread ended; the full statement is refuted by interleavings.")
c("C43", "partial", "c43_positions c43_accept c43_listens c43_memory_partial c43_abort c43_names_partial c43_add_ok c43_add_exists c43_del c43_names_refuted c43_failed_add_refuted c43_port_zero_refuted", "Positions and the endpoint of an accepted connection: for every sequence of operations. Memory: without the removal of the listen container (C54). Names: unique if the configuration creates only names no endpoint has, UNIX sockets included, which is not checked; a failed addition stays.")
c("C54", "partial", "c54_partial c54_reference_refuted c54_unix_refuted", "For SSH and TLS endpoints without references to each other, in any number and order; refuted with references (double free) and with UNIX socket endpoints (lost, freed one kept).")
c("C55", "partial", "c55_references c55_chain_ends c55_acyclic c55_ch c55_returns c55_diverges_refuted c55_pointers_partial c55_pointers_refuted", "Success implies what the statement says; termination is refuted (an endpoint referring into a cycle of others), with the exact condition when the check returns; the pointers are right after a successful check, and may dangle after a refused one.")
c("C56", "partial", "c56_served_partial c56_no_block_partial c56_timeout c56_order c56_start c56_rebind_refuted c56_vanish_refuted c56_broken_refuted", "While the sockets stay as they are and waiting connections are not dropped.")
c("C45", "partial", "c45_permitted_partial c45_complete c45_readback c45_info c45_message c45_type_refuted", "Every tag, argument and one of the four types: permitted type, right tag, severity and error-info, and every permitted combination can be built. A value that is none of the four types gives an empty error-type for seven tags (refuted).")
c("C57", "proved", "c57_values c57_info", "Every error nc_err makes and every sequence of calls; an application adding session-id elements of its own with nc_err_add_info_other is excluded from the count of session-ids.")
c("C58", "partial", "c58_order_partial c58_order_refuted c58_language_refuted", "Holds for errors without application tag and path; these are put after the message (refuted). A message in another language keeps the language of the default one (refuted).")
c("C59", "proved", "c59_at_most_one c59_not_asked", "Every life of a structure from nc_ps_new() on; the list functions are shown to be those on memory (rep_add, rep_del, rep_clear). Concurrent removal while a call serves is outside the model.")
c("C60", "proved", "c60_reason c60_killed", "Every life of a structure from nc_ps_new() on. Inactivity is measured as in C17.")
c("C61", "proved", "c61_never", "Every life of a structure from nc_ps_new() on.")
c("C62", "proved", "c10_server", "Every answer of the transport and every hello; the four accept calls.")
c("C63", "proved", "c43_positions c43_accept", "Every sequence of operations from the initial state that does not end in undefined behaviour (see C54) and every set of waiting connections.")
c("C64", "proved", "c55_references c55_chain_ends c55_acyclic c55_ch", "Every list of endpoints for which the check returns success; that it always returns is C55, refuted.")
c("C65", "proved", "c27_others_kept c27_repeated", "Every list of binds and all combinations of arguments, including absent ones.")
c("C66", "partial", "c66_keys_partial c66_system_refuted c66_reference_refuted c66_order_refuted", "Proved when every configuration on the way is valid and something is configured at the end. Refuted: after use-system-keys is removed (alone or with public-keys) the system's keys are still accepted; after a truststore reference is removed an attempt uses NULL; a change from a reference to keys visited in schema order leaves a count without an array.")
c("C67", "partial", "c67_user_partial c67_cert_partial c67_refuted c67_hostkey_refuted", "Proved for users when every configuration on the way is valid, for certificates when moreover a reference is only removed with its container. Refuted for changes of the source visited in the other order; texts of a host key that became a reference are leaked.")
c("C68", "partial", "c68_certs_partial c68_refuted", "Proved, also for nothing configured, when every configuration on the way is valid and a reference is only removed with its container. Refuted: the certificates that follow a removed reference are used as the name of a bag.")
c("C69", "proved", "c69_safe c69_used", "Every list of changes (safety) and every history of configurations with the nodes of each change in any order (the key used). The format fields are not modelled.")
c("C70", "partial", "c70_inline_partial c70_references_partial c70_switch_refuted c70_order_refuted", "Proved for references followed, after their removal, by definitions in the configuration. Refuted: a change from a definition to a reference always calls free() with the number of the key format; a change back does so unless the removal is visited first.")
c("C71", "proved", "c71_inline c71_clean", "Every sequence of changes with at most 65535 keys at a time; c71_clean says that this is the only condition.")
c("C72", "partial", "c72_sent_partial c72_sent_all c72_refuted c72_all_refuted", "Proved for all operations, for get-data when libyang takes the filters of origins or nothing follows them. Refuted: after a refused filter of an origin the loop ends, the next node resets the error, and get-data is sent without the filter. The generic request (a tree of the caller) is not modelled.")
c("C73", "proved", "c73_constructed c73_accepted", "All constructors of the 23 modelled operations. nc_rpc_modifypush_periodic() takes the period 0 (c73_period_refuted), which is not part of the statement.")
c("C74", "proved", "c72_others c72_unambiguous c72_sent_all c72_buffer", "All modelled operations but get-data; no condition.")
c("C75", "partial", "c75_created c75_history_partial c75_never c75_only c75_to_client c75_kept_refuted c75_lost_refuted c75_order_refuted c75_before_refuted c75_direction_refuted", "Proved: additions at the end and removals of the last algorithm. Refuted: a removal from any other place never gives the list without it (c75_never), removing the only one reads before the text (c75_only), insertions and moves are appended, and what a client sends is not restricted.")
c("C76", "partial", "c76_created c76_never c76_full_refuted", "Proved for additions. Removals fail always with OpenSSL (c76_never): names are stored in upper case with underscores and searched as configured. mbedTLS keeps numbers and searches them as a text, which is not modelled.")
c("C77", "partial", "c77_bits c77_openssl_partial c77_gap_refuted c77_mbedtls_partial c77_mbedtls_refuted", "Proved if the configured versions have no gap (OpenSSL), and for 1.2 and 1.3 if one of them is configured (mbedTLS). Refuted otherwise: only the least and greatest are set; with mbedTLS 1.0 and 1.1 alone set nothing.")
c("C78", "partial", "c78_entries_partial c78_map_refuted c78_name_refuted", "Proved for all changes but those of the map type or name of an entry that stays, which no function takes over.")
c("C79", "proved", "c79_algorithms c79_suites c75_to_client c77_bits", "No condition.")
c("C80", "proved", "c80_entries", "Valid changes in the sense of ietf-x509-cert-to-name; changes of a map type or a name are not part of the statement (see C78).")
c("C81", "proved", "c81_arrives c81_sequence c81_kind", "For the receiver a memory that grants the size of the message. A reply, printed by libyang as a whole, ends with its end tag or is an empty element, and is named rpc-reply without a prefix to be taken for a reply.")
c("C82", "proved", "c82_sent c82_delivered", "The event log of the transport is infinite; a reply that libyang prints as nothing is left out.")
c("C83", "partial", "c83_hello c83_data_partial c81_time_refuted", "Capabilities may be any texts; the seams are safe. The time of a notification is neither checked nor escaped (refuted); what libyang prints is not modelled.")
c("C84", "partial", "c84_let_in c84_connected_partial c84_connected_refuted", "Whom the server let in is connected; the converse only if the private keys can be read: otherwise the answer to the question whether a key would do is taken for success (refuted).")
c("C85", "proved", "c85_accepted c85_stored c85_remembered c85_first", "Built without DNSSEC; answers of libssh are arbitrary.")
c("C86", "proved", "c86_order", "The answers of the server and of the callbacks are arbitrary.")
c("C87", "partial", "c87_all_partial c87_gets_in_partial c87_all_refuted", "Passwords and keys with the preference 0 are never tried (refuted); proved for positive preferences.")
c("C88", "partial", "c88_added c88_got c88_removed_partial c88_failed_partial c88_failed_refuted c88_twice_partial c88_twice_refuted c88_index_refuted c88_encrypted_partial c88_encrypted_refuted", "Refuted: a failed call may leave the pair added, relative paths can be added twice, negative indices are not refused, PKCS #8 encryption is not noticed.")
c("C89", "partial", "c89_partial c89_refuted", "If the channel is refused, the lock stays taken (refuted).")
c("C90", "partial", "c90_used_partial c90_none c90_from c90_last_refuted c90_rest_refuted c90_pem_refuted c90_memory_refuted", "Refuted: if the last distribution point fails, so does the connection; data of a broken download go in front of the next one; with mbedTLS PEM is read beyond its end.")
c("C91", "partial", "c91_client_partial c91_client_once c91_client_socket_partial c91_client_session c91_server_partial c91_server_socket_partial c91_server_session c91_client_socket_refuted c91_key_refuted c91_double_refuted", "Refuted: a failed handshake leaves the socket of a client open; a key that does not fit leaves everything allocated with OpenSSL; with mbedTLS a server may close the socket twice.")
c("C92", "proved", "c92_verified c92_name c92_completed", "What the TLS library verifies when told so is trusted. Call Home without a host name of the bind has no name verified, as documented.")
c("C93", "partial", "c93_force_partial c93_verified c93_force_refuted c93_memory_refuted c93_name_refuted", "Proved for OpenSSL; with mbedTLS the defaults are set afterwards, names of TLS 1.3 suites are wrong and suites are written beyond allocated memory (refuted).")
c("C94", "proved", "c91_client_once c91_client_session c91_server_session", "Reference counts of OpenSSL are folded as described in TlsConn.v.")
c("C95", "proved", "c20_never_processed", "For every state and oracle of PsPoll.")
c("C96", "proved", "c16_at_most_one", "last_event_session is a position of the structure, which every operation keeps.")
c("C97", "proved", "c18_reason c18_reason_history", "Causes are spelt out in the relation cause of Prop_PsTerm.")
c("C98", "proved", "c17_never c17_callhome", "Narrower than a property above of which it is the part that holds.")
c("C99", "proved", "c10_server", "Narrower than a property above of which it is the part that holds.")
c("C100", "proved", "c27_others_kept c27_repeated", "Narrower than a property above of which it is the part that holds.")
c("C101", "proved", "c43_positions c43_accept", "Narrower than a property above of which it is the part that holds.")
c("C102", "proved", "c55_references c55_chain_ends c55_acyclic", "Success with any amount of fuel; that the check may not return is C55.")
c("C103", "proved", "c39_exact c39_faithful c39_fingerprint", "Narrower than a property above of which it is the part that holds.")
c("C104", "proved", "c19_timeout", "Narrower than a property above of which it is the part that holds.")
c("C105", "proved", "c15_round", "Narrower than a property above of which it is the part that holds.")
c("C106", "proved", "c84_let_in", "Narrower than a property above of which it is the part that holds.")
c("C107", "proved", "c83_hello", "Narrower than a property above of which it is the part that holds.")
c("C108", "proved", "c12_base", "Narrower than a property above of which it is the part that holds.")
c("C109", "proved", "c25_version10", "Narrower than a property above of which it is the part that holds.")
c("C110", "proved", "c08_both_peers", "Each capability shows as a text of a hello; ids are 1 to 2^32-1.")
c("C111", "partial", "c111_mbedtls_partial c111_openssl_refuted c111_zero_refuted c112_encoding", "RSA is C112. Curves: proved for mbedTLS; with OpenSSL the blob has the prime of the field in place of the point and is the same for all keys (refuted).")
c("C112", "proved", "c112_encoding c112_distinct c112_server", "real_rsa is: both numbers not 0 and of a size that fits into 32 bits of length.")
c("C113", "partial", "c113_ssh2_partial c113_header_refuted c113_continued_refuted c113_success_refuted", "Proved for files whose headers are comments of one line; other headers become part of the key (refuted), and a key that cannot be written is success without a key (refuted).")
c("C114", "proved", "c114_private c114_certificate c114_formats", "Assumes that the libraries write PEM (RFC 7468, writes_pem); which keys they read is theirs.")
c("C115", "partial", "c115_partial c115_left_refuted c115_empty_refuted", "Proved if fdopen(), strdup() and unlink() succeed; otherwise the file, with the key, stays (refuted).")
c("C116", "partial", "c116_mbedtls_partial c116_openssl_partial c116_two_refuted c116_three_refuted c116_reasons_refuted c116_rest_refuted c116_openssl_null_refuted c116_openssl_union_refuted", "mbedTLS: proved for one distribution point per extension with nothing but a full name; refuted for more (URIs twice, errors). OpenSSL: proved if all points have a full name; otherwise a null pointer or the wrong member of a union is used (refuted).")
c("C117", "partial", "c117_defined_partial c117_inside c117_free_refuted c117_oid_refuted", "Proved except for two cases, both refuted: a directory name before a name of unsupported kind is freed twice, and an OID that begins with the one looked for and a zero is compared beyond the constant.")
c("C118", "proved", "c117_inside", "The functions of mbedTLS called are written out as far as they move pointers.")
c("C119", "partial", "c119_options_follow_configuration_partial c119_from_start_partial c119_endpoint_removal_refuted c119_no_thread_refuted c119_transport_change_refuted c119_options c119_each_endpt c119_defaults_refuted", "Proved for all histories of diffs, data and dispatching in which only the last endpoint of a client is removed, clients are removed after their thread was dispatched and a transport is removed before another one is set; for the leafs that the diffs mention. Refuted otherwise: memory of a removed endpoint is used, NULL dereferenced, options of the wrong type freed, and max-wait and keepalive parameters are 0 instead of their defaults.")
c("C120", "proved", "c120_applied_in_order", "For the Call Home subtree.")
c("C121", "proved", "c121_data_replace_everything c121_operations_refused", "")
c("C122", "partial", "c122_removal_safe_partial c122_removal_safe_refuted c122_thread_first_refuted c122_assert_refuted c122_no_thread_refuted c122_failed_wait_refuted c122_two_threads_refuted", "Proved for all executions in which a client is dispatched once, removed after that, no wait fails, and the thread does not look the client up between its removal and the signal nor where the code asserts that the client exists. Each of these is shown necessary by an execution that misuses memory, aborts, or leaves a thread behind.")
c("C123", "proved", "c123_client_not_used_after_removal c123_one_user c123_removal_waits c123_told_thread_ends c123_told_thread_can_go_on", "A step is the code between two accesses to the shared state; connecting and waiting for the session's condition variable are single steps. The bound on the number of steps holds if the program is not aborted (see C122).")
c("C124", "partial", "c124_modules_loaded_partial c124_not_implemented_refuted c124_other_module_refuted", "Proved if lys_set_implemented() succeeds and sources give the module that was asked for; features if the server lists every implemented module once. Refuted otherwise: the session is not marked and the module is missing.")
c("C125", "proved", "c125_callback_restored", "")
c("C126", "proved", "c126_sources", "")
c("C127", "partial", "c127_running_partial c127_dead_session_refuted", "Proved for sessions with a context of their own whose server has a usable yang-library. Refuted in general: the session may have broken while a module was asked for and found by other means.")
c("C128", "partial", "c128_base_module_partial c128_not_listed_refuted c128_base_only_refuted", "Proved: after a successful fill the module is implemented. Refuted: the fill fails for all servers that do not list ietf-netconf as a module in their capabilities.")
c("C129", "partial", "c129_options_restored_partial c129_options_refuted", "Proved if the options were not set before; otherwise they are lost.")
c("C130", "proved", "c130_sockets_owned c130_nothing_left c130_client", "")
c("C131", "partial", "c131_host_true c131_host_partial c131_host_refuted", "Proved: a host that is told is the right one, and it is told unless a pending socket has the descriptor 0, for which it is NULL.")
c("C132", "partial", "c132_configured_address_partial c132_configured_address_refuted", "Proved if the address is never changed with a socket pending. Refuted otherwise: the pending socket is kept when the address is changed, and the session goes to the old host.")
c("C133", "proved", "c133_client_first_address", "")
c("C134", "partial", "c134_reachable_connects_partial c134_reachable_connects_refuted", "Proved for an endpoint without a pending socket if no address before the one that answers times out. Refuted: if the first address never answers, the other ones are never tried, whatever the number of attempts.")
c("C135", "proved", "c135_keepalives", "")
c("C136", "partial", "c136_nodelay_partial c136_nodelay_refuted", "Proved for endpoints without a pending socket at the attempts. Refuted: it is not set on a socket that was pending.")
c("C137", "partial", "c137_stores_follow_partial c137_public_key_refuted c137_unknown_format_refuted", "Proved if the leaf public-key of an asymmetric key is not removed alone, the formats are known, and lists have at most 65535 entries. Refuted otherwise: the removed public key stays; a key of an unknown format is used as one of the format before.")
c("C138", "proved", "c138_memory c138_all_freed", "")
c("C139", "proved", "c139_data_replace", "About the part of the call that handles the keystore and the truststore; netconf-server is in C66-C71 and C119-C121.")
c("C140", "partial", "c140_message c140_heard_partial c140_given_up_partial c140_zero_refuted", "Proved for a timeout other than 0, with the precision of a millisecond. Refuted for 0: the wait ends after the first look at the socket.")
c("C141", "proved", "c141_questions", "")
c("C142", "partial", "c142_success c142_failed c142_responses_partial c142_responses_refuted", "The array is right if all messages are questions. Refuted otherwise: answers are at the places of the questions counted without the information messages, and a module that reads the response of its message reads after the array.")
c("C143", "proved", "c143_decision c143_calls", "A client whose connection is lost or whose time is over fails the conversation (C142); what then is returned is up to the modules.")
c("C144", "proved", "c144_system", "")
c("C145", "partial", "c145_authenticated c145_ends c145_no_limit c145_limit_partial c145_limit_refuted", "Proved exactly when a client is authenticated; the time is checked after each request. Refuted for keyboard-interactive: each exchange, and each conversation in it, has the whole timeout again, so that authentication can take any multiple of it.")
c("C146", "partial", "c146_no_use_after_free_partial c146_freed_last_partial c146_two_calls_refuted c146_slow_callback_refuted", "Proved if the threads react within the second nc_session_free() waits, and dispatching calls are made one by one or no pthread_create() fails. Refuted otherwise: with a longer callback, and with two calls of which one fails.")
c("C147", "partial", "c147_not_running_partial c147_running_partial c147_running_refuted", "0 is right under the conditions of C146. 1 is right if also no thread ended by itself: the flag stays set after notificationComplete or a broken session (refuted).")
c("C148", "proved", "c148_callbacks c148_each", "")
c("C149", "proved", "c149_quit", "")
c("C150", "partial", "c150_lifetime_partial c150_lifetime_refuted", "Proved if no thread changes its context or ends while another does, contexts that are set are used by some thread, and there are less than 2^32 - 1 threads. Refuted without the first: the counter is not atomic, so contexts leak or are freed while they are used.")
c("C151", "partial", "c151_settings_partial c151_defaults_partial c151_defaults_refuted", "Sharing is proved under the conditions of C150; defaults without conditions, but not for keepalives, which are on only in the main thread (refuted).")
c("C152", "partial", "c152_follows_partial c152_timeout_refuted c152_order_refuted", "Proved without the order of host keys, if auth-timeout and the container keyboard-interactive of a staying user are not removed, the transport stays and lists have at most 65535 entries. Refuted: removed auth-timeout, order of host keys; for keyboard-interactive see C154.")
c("C153", "partial", "c153_memory_partial c250_full_refuted", "If the transport of an endpoint stays and lists have at most 65535 entries. Refuted for changes of the transport in the model of C250.")
c("C154", "partial", "c154_authenticated_partial c154_others_partial c154_keyboard_refuted", "Composition of C152 with C29. Under the conditions of C152, with local users only and no endpoint reference; which public keys a user has is left to the stores. Refuted: keyboard-interactive removed by a diff stays enabled.")
c("C155", "partial", "c155_add_partial c155_refused c155_apostrophe_refuted", "Proved for identifiers without an apostrophe; refuted with one (nothing can be added).")
c("C156", "partial", "c156_del_partial c156_all_refuted c156_user_ref_refuted c156_apostrophe_refuted", "Proved for identifiers without an apostrophe and all functions but nc_server_config_del_ssh_truststore_ref(). Refuted: without a name nothing is removed; nc_server_config_del_ssh_truststore_ref() never removes anything; a name with apostrophes removes a node of another endpoint.")
c("C157", "partial", "c157_created_partial c157_connection_refuted c157_stores_refuted", "Proved for identifiers without an apostrophe. Refuted for the connection type of Call Home clients (always fail) and for the keystore and the truststore (always fail, and the new tree is lost).")
c("C158", "proved", "c158_kept c158_keystore_refuted", "The second theorem: without the container (a keystore only) the caller's tree is lost.")
c("C159", "proved", "c159_requests_freed_safely", "The caller hands over each block once (NoDup) with NC_PARAMTYPE_FREE.")
c("C160", "partial", "c160_nothing_lost_partial c160_excluded_change_refuted", "Refuted for nc_rpc_establishpush_onchange() copying a list of excluded changes when an allocation fails; proved for all others and for it without failures.")
c("C161", "partial", "c161_request_has_its_parameters_partial c161_origin_filters c161_made_iff_acceptable c161_lost_filter_refuted", "Refuted if a string cannot be copied (the request is made without it, e.g. get-config without its filter); proved if no allocation fails or nothing is copied, and for the origin filters of get-data always.")
c("C162", "proved", "c162_replies_freed_once c162_no_reply", "Each error is handed over once (NoDup).")
c("C163", "partial", "c163_notifications_freed_once_partial c163_eventtime_refuted", "Safe always; refuted: if the tree cannot be copied, the copy of the time is lost.")
c("C164", "proved", "c164_left_as_found c164_not_shown", "For calls without undefined behaviour (C165).")
c("C165", "partial", "c165_only_the_line c165_line_returned_partial c165_too_long_refuted", "Proved for lines of less than 2^30 characters (2^31 for interactive answers); refuted beyond (the length of the buffer overflows).")
c("C166", "proved", "c166_vouched c166_accepted", "")
c("C167", "partial", "c167_found_partial c167_two_keys_refuted", "Proved if no other record has the algorithm and type of the key; refuted for a host with two keys of the same type (only the first record is compared).")
c("C168", "partial", "c168_told_partial c168_other_types_refuted", "Proved for RSA, DSA and ECDSA keys; refuted for others (Ed25519): nothing is looked up, and the user is told that a matching fingerprint was found.")
c("C169", "partial", "c169_within_records_partial c169_short_record_refuted", "Proved if all SSHFP records have at least 22 octets; refuted otherwise (the length of a record is never looked at).")
c("C170", "partial", "c170_intervals_partial c170_memory_refuted", "Proved if memory is never short for an interval; refuted otherwise (all intervals are gone, their number is not, and the next change reads at NULL).")
c("C171", "partial", "c171_about_it_partial c171_distinct_partial c171_apostrophe_refuted c171_same_path_refuted", "Proved for names without apostrophes; refuted for others (names are put into the XPath as they are).")
c("C172", "partial", "c172_all c172_watched_partial c172_first_partial c172_default_first c172_broken_refuted", "Proved if all certificates can be read; refuted otherwise (one that cannot be read ends the thread, and none is watched).")
c("C173", "partial", "c173_released_partial c173_memory_refuted", "Proved for certificates that cannot be read; refuted if memory or the calendar fails (times are lost, or the array is read at NULL).")
c("C174", "partial", "c174_there_partial c174_cut_refuted", "Proved for addresses that do not have exactly 107 characters; refuted for those (the last character is cut off: another file is deleted and replaced by the socket).")
c("C175", "proved", "c175_permissions_first c175_success", "")
c("C176", "partial", "c176_closed_partial c176_removed_partial c176_left_refuted", "Proved: the descriptor is closed after a failure; nothing is left after removal for addresses of at most 106 characters. Refuted: the file stays after a failed chmod(), chown() or listen(), and after removal if the address has 107 characters.")
c("C177", "partial", "c177_reached_partial c177_server_partial c177_cut_refuted", "Proved up to 107 characters (106 for reaching the server); refuted beyond (the client connects to the file named by the first 107 characters).")
c("C178", "proved", "c178_name c178_known", "")
c("C179", "partial", "c179_released_partial c179_unknown_user_refuted", "Proved but for users whose entry is not found; refuted for those (the buffer is lost with each connection).")
c("C180", "proved", "c180_answer c180_found c180_none", "")
c("C181", "partial", "c181_whole_partial c181_cut_refuted", "Proved if a failing printer leaves nothing; refuted otherwise (its result is ignored, half a module is sent).")
c("C182", "partial", "c182_unique_partial c182_implemented_partial c182_several_refuted", "Refuted: the implemented or latest one is sent. Proved: what is sent if one is meant, or one is implemented.")
c("C183", "partial", "c183_announced_partial c183_import_only_refuted", "Proved for modules with a revision or implemented; refuted for modules without revision that are only imported, beside an implemented one of the same name.")
c("C184", "partial", "c184_inside_partial c184_outside_refuted", "Proved for names without slashes; refuted: a server that announces module=../../../etc/x makes the client write there.")
c("C185", "partial", "c185_kept_partial c185_overwritten_refuted", "Proved for names without slashes if libyang finds files in the directory; refuted otherwise (files with suffix .yang are overwritten).")
c("C186", "partial", "c186_same_partial c186_cut_refuted", "Proved if all was written; refuted otherwise: results of fputs() and fclose() are ignored and the part is used ever after.")
c("C187", "partial", "c187_read c187_lost c187_released_partial c187_norev_refuted", "Refuted: the path is lost if the file found has no revision and one is wanted.")
c("C188", "partial", "c188_free_partial c188_static_refuted c188_undefined", "Refuted: free() is called on any text (undefined for constant ones), the function of the user never. Proved for texts of malloc().")
c("C189", "partial", "c189_once_partial c189_error_refuted", "Proved unless a lock fails with an error; refuted then (nothing is released and the caller cannot know).")
c("C190", "proved", "c190_in_order c190_last", "")
c("C191", "proved", "c191_told c191_quiet", "If the request can be created.")
c("C192", "partial", "c192_ends_partial c192_endless_refuted c192_notifications", "Proved if finitely many messages come, with a bound; refuted: as long as notifications keep coming before the timeout of each reading, the client does not return.")
c("C193", "partial", "c193_no_abort_partial c193_abort_refuted", "Proved if the context is the session's own or no other session has data for schema mounts; refuted: the assertion fails when a session with a context of the user is closed before the first session, which has such data.")
c("C194", "partial", "c194_kept_partial c194_read_back_partial c194_full_refuted", "Proved for all sequences of calls in which no index is negative and there is memory for the first of two strings and for the table of pairs (see C195); all other allocations may fail.")
c("C195", "partial", "c195_safe_partial c195_cert_refuted c195_ca_refuted c195_table_refuted c195_index_refuted c195_full_refuted", "Proved under the conditions of C194; refuted without them: key_path and ca_dir dangle after a failed strdup(), the table of pairs is NULL with a count after a failed realloc(), a negative index is not refused.")
c("C196", "partial", "c196_nothing_left_partial c196_table_refuted", "Proved under the conditions of C194; refuted without memory for the table of pairs.")
c("C197", "partial", "c197_separate_partial c197_full_refuted", "Proved (non-interference) under the conditions of C194; without them a call of the other side can end in undefined behaviour.")
c("C198", "partial", "c198_fixed_order_partial c198_documented_refuted", "Refuted: the order is the opposite (proved for all servers).")
c("C199", "partial", "c199_ends_partial c199_endless c199_mbed_refuted", "Proved for descriptors, UNIX sockets, SSH and OpenSSL; refuted for MbedTLS, where nc_write() goes on for ever whatever the errors are.")
c("C200", "partial", "c200_ends_partial c200_until_timeout c200_mbed_refuted", "Proved for descriptors, UNIX sockets, SSH and OpenSSL; refuted for MbedTLS, where only the time limit ends reading.")
c("C201", "partial", "c201_openssl c201_mbed_partial c201_mbed_endless c201_mbed_refuted", "Proved for OpenSSL; refuted for MbedTLS, where it returns only once the library gives anything but WANT_READ or WANT_WRITE (proved).")
c("C202", "partial", "c202_ends_partial c202_until_timeout c202_mbed_refuted", "Proved for OpenSSL, and for a client with MbedTLS if poll() tells that the connection is broken; refuted for a server with MbedTLS, which goes on until the time is over, for ever without a limit.")
c("C203", "partial", "c203_same_partial c203_reason c203_counted c203_errors_refuted", "Proved for everything but errors of the system other than EAGAIN and EINTR, for which it is refuted. How a situation shows in each library (SSL_get_error, codes of MbedTLS) is an assumption stated in the definitions on_ossl and on_mbed.")
c("C204", "partial", "c204_alive_partial c204_gone c204_signal_refuted c204_full_refuted", "Proved for SSH and MbedTLS, and for the others if poll() sees the end of the connection; refuted if the peer closes after the poll(), or closes only the descriptor written to. That libssh raises no signal is assumed.")
c("C205", "partial", "c205_connect c205_libssh_partial c205_callhome_partial c205_connected_refuted c205_user_refuted c205_callhome_refuted c205_memory_refuted c205_full_refuted", "Proved for nc_connect_ssh() without conditions; for the others if the library authenticates, the user is known and there is memory for the session. Refuted otherwise: host and user name, buffer, socket and SSH session are lost.")
c("C206", "proved", "c206_connect c206_libssh c206_callhome", "All runs; an SSH session given that is connected has a host. That ssh_free() does not close a socket it was given is assumed of libssh.")
c("C207", "proved", "c207_connect c207_libssh c207_callhome", "All successful runs.")
c("C208", "partial", "c208_unharmed_partial c208_locked_refuted c208_full_refuted", "Proved for the ring always, for the lock unless opening the channel is what fails. Refuted then: the lock is never released and no session of the ring can be used or closed in order.")
c("C209", "partial", "c209_joined_partial c209_user_refuted c209_full_refuted", "Proved if host and user of the first session are known and there is memory for copies. Refuted otherwise: a session made on an authenticated SSH session without a user name has none, and strdup(NULL) follows.")
c("C210", "proved", "c210_connect c210_libssh c210_callhome", "All runs, as an order of events.")
c("C211", "partial", "c211_user_partial c211_real_user_refuted", "Proved if the real and the effective user are the same. Refuted otherwise: getuid() is asked.")
c("C212", "proved", "c212_ends c212_success c212_timeout", "All sequences of answers; both directions.")
c("C213", "proved", "c213_success c213_failure c213_untouched", "For every libyang whose successful ly_ctx_load_module implements the module with the features asked for and keeps the others (loads_well).")
c("C214", "proved", "c214_success c214_failure", "For every libyang as in C213; the table of modules and features in the statement is written independently. A NULL argument is dereferenced (not claimed).")
c("C215", "partial", "c215_partial c215_interactive c215_refuted c215_refuted_use", "False for the content-id callback: nc_server_destroy frees its datum and keeps the pointer, so a second life of the server uses it and a second nc_server_destroy frees it again. Proved if the application renews it in time; unconditional for the interactive authentication.")
c("C216", "partial", "c216_partial c216_refuted", "False for a datum replaced by setting the callback again, which is forgotten. Proved: a datum not replaced since is freed exactly once by nc_server_destroy.")
c("C217", "partial", "c217_partial c217_refuted c217_refuted_attr", "False: after the attribute was destroyed, every later failure destroys it again, and a failure leaves what was set up before it. Proved: success exactly if no call failed, everything then set up once; nothing but the attribute is ever set up or destroyed twice.")
c("C218", "partial", "c218_partial c218_refuted c218_full_refuted", "False for config_lock, ch_client_lock and the lock and condition of the certificate notifications, which nc_server_destroy never destroys. Proved for libcurl, libssh and bind_lock: set up exactly while the server is initialised.")
c("C219", "proved", "c219_listen c219_call_home c219_root", "The annotated schema trees were compared node by node with an expansion of the YANG modules in /repo/modules (239 nodes, no difference). Whether an object of that name exists and the values are not part of it; map-type and name of a mapping have no handler (C78).")
c("C220", "proved", "c220_keystore c220_truststore", "As C219.")
c("C221", "proved", "c221_listen c221_call_home c221_apart c221_keystore c221_truststore", "From C219 and C220 and the schema.")
c("C222", "proved", "c222_same c222_unique", "The operation of a generic tree: the tree has exactly one operation and no node without schema. Memory is there (w_dup).")
c("C223", "proved", "c223_sent c223_partial c223_full_refuted", "For requests never sent the only exception is a push subscription without ietf-yang-push in the context: NC_MSG_ERROR with a live operation in op (c223_full_refuted, c223_partial). The variables of the caller are NULL before the call.")
c("C224", "partial", "c224_oper_partial c224_oper_full_refuted c224_schema_partial c224_schema_leak c224_schema_full_refuted c224_ends", "Refuted: get-schema leaks two trees for every reply with another message-id, without limit; get-data frees the envelope twice if such a reply is followed by a call that fails before receiving.")
c("C225", "proved", "c225_own c225_one c225_works", "What libraries make of the data is an argument of the theorems.")
c("C226", "proved", "c226_trusted", "Authorities of the second endpoint only, not of one that one references (C36).")
c("C227", "partial", "c227_partial c227_full_refuted", "Refuted for a reference of end entity certificates to a bag that does not exist: it counts as 65535 certificates. The connection is then refused only when the certificate of the client is checked.")
c("C228", "proved", "c228_memory c228_defined", "As far as loading and counting go (lines 793-858); the rest is C90-C93.")
c("C229", "proved", "c229_printed c229_memory c229_whole", "vsnprintf() is modelled by its standard; the va_end() that is missing is not.")
c("C230", "partial", "c230_partial c230_full_refuted", "Refuted for a text of exactly 2^31-1 bytes: its length plus one overflows an int. Proved for all shorter ones.")
c("C231", "proved", "c231_all c231_any", "")
c("C232", "proved", "c232_identities c232_succeeds c232_complete", "The tables of identities are transcribed from the YANG modules (GSS-API ones left out), that of libssh from its documentation.")
c("C233", "partial", "c233_partial c233_full_refuted", "Refuted for triple-des-cbc, which is given to libssh under that name and not as 3des-cbc. Proved for all others.")
c("C234", "proved", "c234_transport c234_result", "Memory suffices and the system gives no socket that is open; otherwise see C235.")
c("C235", "partial", "c235_partial c235_full_refuted", "Refuted if memory runs out: the count is raised before the array is grown, and later calls read an array that is gone. Proved if memory suffices.")
c("C236", "partial", "c236_partial c236_all_removed c236_full_refuted", "Refuted for the host name of an address that is removed by address, port or transport: it is lost. Proved for everything else, and for host names if all addresses are removed at once.")
c("C237", "proved", "c237_connections c237_sockets", "What a client does with a connection it was handed is in C90-C93 and SshConn.")
c("C238", "proved", "c238_memory c238_defined", "For one verification with its data, as in nc_accept_tls_session(); a second with the same data would use freed memory (c238_again).")
c("C239", "proved", "c239_accepted c239_same c239_trusted", "The list-level verification is that of C38; c239_trusted carries C38 over, under its condition on the flag of missing certificates.")
c("C240", "partial", "c240_partial c240_full_refuted", "For clients that name one user in all their requests. Refuted otherwise: naming an unknown user leaves only publickey offered to the known one.")
c("C241", "proved", "c241_told c241_total", "The complaint is libyang's error with its message and paths, an input of the model.")
c("C242", "partial", "c242_partial c242_full_refuted", "Holds unless the parser complains about an invalid character sequence after the envelope was parsed; there the error is sent whatever the version. Bad framing is left out, as it is found only with the framing of 1.1; replies of the application too.")
c("C243", "partial", "c243_partial c243_reached c243_full_refuted c243_lost", "For endpoints without references among them (see C54) and an order in which, with k configured endpoints, the last k are configured ones followed by those of the application; all of these before or after the configured ones is such an order (in_order_first, in_order_last). Refuted in other orders: an endpoint is lost.")
c("C244", "partial", "c244_partial c244_set c244_reason c244_no_reason c244_full_refuted", "For all sequences of calls of the application. Refuted with nc_ps_poll(), which gives another reason and keeps the killer.")
c("C245", "proved", "c245_encrypted c245_refused", "A line is what fgets() with 128 bytes reads; the word is looked for before the first NUL.")
c("C246", "proved", "c246_module c246_unique c246_no_submodules", "Without submodules (see C50). The children are those with a value, as libyang gives them.")
c("C247", "proved", "c247_announced c247_only", "The URIs and features are written out in the table of the statement, after RFC 6241.")
c("C248", "proved", "c248_module c248_text c248_yanglib", "That there is no second entry with the same identifier is c12_base. What follows the revision is in C183 (mod_str_ann).")
c("C249", "proved", "c249_got c249_disabled c249_order c249_enabled", "Values are those of int16_t. That a method of value 0 is tried is not claimed (C87).")
c("C250", "partial", "c250_partial c250_full_refuted c250_listens", "For changes that keep the transport. Refuted for changes between SSH and TLS, in both directions and both orders of the nodes: double free, or options taken for those of the other transport.")
c("C251", "proved", "c251_never", "The new container has the mandatory local-address.")
c("C252", "partial", "c252_norev_partial c252_first_partial c252_given c252_full_refuted", "Proved if no revision of the including module is given, which is what libyang 2 does for submodules, and if the including module is the first of the list. Refuted otherwise: the submodules of the first module of the list are searched.")
c("C253", "proved", "c253_tag c253_type c253_unknown", "Names are written out in the statement.")
c("C254", "partial", "c254_partial c254_full_refuted c254_stays", "For histories in which the container listen is not removed and all whole data have the leaf. Refuted otherwise: removing listen, by a difference or by whole data without it, leaves the old timeout in force (c254_stays).")
c("C255", "partial", "c255_partial c255_adds c255_full_refuted", "For servers without intervals at the time. Refuted otherwise: the old intervals stay (c255_adds), and the same data given twice make each interval count twice. Memory suffices.")
c("C256", "proved", "c256_order", "The last case of the statement, a submodule that is looked for nowhere, is C257. Requests that do not crash (C28).")
c("C257", "proved", "c257_nowhere", "A revision is optional for submodules in ietf-yang-library. The module is asked for without a revision, as libyang does for submodules.")
c("C258", "partial", "c121_operations_refused c258_lost c258_full_refuted", "True for data refused because of an operation attribute. Refuted for any other failure: the old clients are deleted first and what is left depends only on the data (c258_lost).")
c("C259", "proved", "c259_no_deadlock c259_completes c259_bounded", "Threads are finite ways through the texts of the functions; locks taken with a time limit and locks of the application itself are left out; waits on conditions, all limited in time, give the lock away and take it again.")
c("C260", "proved", "c260_returned c260_owned", "Same model as C259.")
c("C261", "proved", "c261_refused c261_readers_first c259_full_refuted", "c261_refused: with read locks that wait for a waiting writer. c261_readers_first: all but five pairs also with read locks that do not, the default of glibc. Nothing of this is documented.")
c("C262", "proved", "c262_clients", "Same model as C259.")
c("C263", "partial", "c263_partial c263_full_refuted", "True if nc_server_ch_client_is_endpt() is never called; refuted otherwise: it does not lock the client.")
c("C264", "partial", "c264_partial c264_full_refuted c264_intervals_refuted", "True without Call Home threads and nc_server_destroy(); refuted otherwise: a connecting Call Home thread reads them without config_lock. The intervals of certificate notifications are also read without a lock.")
c("C265", "partial", "c265_generated_partial c265_made c265_full_refuted", "Proved if no public key file is given, and for SSH for RSA keys (C111 has the others). With a public key file of another key both are stored without a word (refuted). Assumes that the libraries write PEM.")
c("C266", "proved", "c266_file", "RSA keys for SSH (C111 has the others). SSH2 files are C113; files of OpenSSH are read by libssh. Assumes that the libraries write PEM.")
c("C267", "proved", "c267_waits c267_at_most_three c267_none", "A wait is limited in time by constants of the library. If a lock fails with an error, nothing is freed (C189).")
c("C268", "partial", "c268_partial c268_told_alive c268_full_refuted c268_clear_refuted", "Proved if each session is added once and is removed and freed by the thread that nc_ps_poll() told that it has terminated; then it is also alive until that thread frees it, so that it can be removed and freed. If another thread removes the session, or calls nc_ps_clear(), while an RPC is handled, the entry is written after it was freed (refuted twice).")
c("C269", "proved", "c269_one_thread", "No rule for the application is assumed. A session counts as handled from nc_ps_poll() finding an RPC of it to the lock for RPCs being given back.")
c("C270", "proved", "c270_once c270_one_thread c270_quiet", "For applications in which each session is added once and is removed and freed by the thread that was told that it has terminated, which is the way of the documentation.")
c("C271", "partial", "c271_partial c271_full_refuted", "Proved if nc_session_free() gets the lock for RPCs within the time it waits for it; if not, it goes on, and the thread that handles the RPC uses the freed session (refuted).")
c("C272", "partial", "c272_partial c272_full_refuted c272_close_lost", "Proved if no session was accepted before the last change of the global function nor before a function of the operation was taken away. Otherwise the defaults stay although a global function is set, against session_server.h 101, or close-session is not supported any more (refuted twice).")
c("C273", "proved", "c273_others c273_nothing", "Data of an action have exactly one action (RFC 7950 7.15.2), at any depth.")
c("C274", "partial", "c274_partial c274_full_refuted", "Proved for the key exchange and authentication, and for the channel with a thousand times the timeout: session_server_ssh.c 1773 takes the milliseconds for seconds (refuted: with 10000 ms the server is still waiting after 9000 s). Clock readings less than 2^31 ms after the beginning of a phase.")
c("C275", "proved", "c275_accepted", "Messages are handled as in C29-C33.")
c("C276", "partial", "c276_partial c276_never c276_full_refuted", "Proved whenever the peer pauses: the limits are checked when a read gives nothing only. Refuted otherwise: a peer that has a byte ready for each read is never given up, whatever the time (c276_never for every duration). Clock readings in order and less than 24 days apart, the default limits of CMakeLists.txt.")
c("C277", "proved", "c277_waiting", "The reading of the message itself is an argument (see C276 and the properties of framing). A descriptor that is not open (POLLNVAL) counts as something to be read.")
c("C278", "partial", "c278_partial c278_full_refuted", "Proved with twice the timeout: nc_session_io_lock() and nc_read_poll() are both given the whole timeout (refuted: a second for the lock and a second for the peer with a timeout of a second).")
c("C279", "proved", "c279_request c279_exchange", "Composition of C21, C81, C16 and C22. libyang's reading is a premise: the server finds the message-id in the request, the client finds the attributes of the reply.")
c("C280", "proved", "c280_requests", "Calls of one thread; for several see C21.")
c("C281", "partial", "c281_partial c281_ip c281_full_refuted c281_mail_refuted", "Refuted: names are passed as they are, \"Host.Example.COM\" stays so, and names end at a NUL. Proved for names without NUL in lower case where the module asks for it; IP addresses without condition. How the library reads the certificate is input.")
c("C282", "partial", "c282_partial c282_full_refuted", "Refuted: with mbedTLS a failed asprintf() for an IPv4 address is not noticed and the undefined pointer becomes the user name. Proved when memory suffices or there is no IPv4 address. What the library makes of the certificate (e.g. mbedTLS refuses IP addresses of other lengths) is input.")
c("C283", "partial", "c283_partial c283_mixed_refuted c283_full_refuted", "Refuted: after a failed write() or ssh_channel_write() the session stays usable and the message counts as sent; its beginning becomes part of the next message. Proved for transports that take data in any portions and may end or block at any byte, but report no other error. Messages as in C81.")
c("C284", "proved", "c284_server c284_client", "Composition of C110, C81 and C280. Premise: libyang reads back the elements of a hello as they are written; capabilities are C strings that are not blank; messages as in C81, memory for them.")
c("C285", "partial", "c285_partial c285_rng c285_key c285_rsa c285_ec c285_success c285_rng_round c285_full_refuted c285_others_refuted", "False in full: an object is released uninitialised when a later allocation fails (exactly when, in c285_rng, c285_key, c285_rsa, c285_ec). Proved of all calls that are defined.")
c("C286", "partial", "c286_partial c286_safe c286_full_refuted", "False in full: an error without a reason string (a system error in OpenSSL 3) is passed to strlen() as NULL. Proved when every error has a reason; without memory NULL is returned.")
c("C287", "partial", "c287_partial c287_exact c287_accepts c287_full_refuted c287_scope_refuted", "False in full: every client on a UNIX socket has the path of the server's own socket as host; the interface of a link-local address is lost. Proved for clients on IP without scope. Premise: inet_ntop() renders different addresses differently (quad_inj: the dotted form does).")
c("C288", "proved", "c288_all_or_nothing c288_other", "The system calls and allocations are oracles.")
c("C289", "proved", "c289_called c289_got c289_total c289_mode", "One thread context; contexts of threads are in C150 and C151.")
c("C290", "proved", "c290_tidy", "Allocations of 2^63 bytes or more fail (premise; the limit of the C library).")
c("C291", "proved", "c291_exact", "The library asks for more space exactly if the buffer is smaller than needed (premise, with an instance in c291_key).")
c("C292", "partial", "c292_released_partial c292_memory c292_refuted c292_null_refuted", "Holds without failing allocations (c292_memory) and whenever no name and no feature is missing (c292_released_partial). After a name or feature that could not be copied the rest is never released (c292_refuted); an array that could not be enlarged is written to through NULL (c292_null_refuted).")
c("C293", "proved", "c293_succeeds c293_keys c293_whole c293_left", "What a failed fclose(), strdup() or unlink() leaves is in C115.")
c("C294", "partial", "c294_array_partial c294_overflow c294_refuted c294_glibc c294_never_removed c294_int_bytes c294_null_refuted", "Holds if each block has four bytes for each number (c294_array_partial), but only one byte for each is asked for: the first suite already overflows its block (c294_overflow); with glibc five suites fit and any more overflow the heap (c294_glibc). Suites are never removed again (c294_never_removed).")
c("C295", "partial", "c295_names_partial c295_refuted c295_refused", "Holds for the suites before TLS 1.3; the prefix of those of TLS 1.3 is overwritten, so that none of them can be configured (c295_refused).")
c("C296", "partial", "c296_partial c296_ssh c296_refuted c296_refused c296_kept c296_deleted c296_format_refuted", "Always holds for SSH (c296_ssh); for TLS if each text can be decoded and the library decides: -1 of nc_is_pk_subject_public_key_info() is taken for a key of the right kind (c296_refuted). The leaf public-key-format is kept without comparing it with the key (c296_format_refuted).")
c("C297", "partial", "c297_partial c297_added c297_deleted c297_endpts c297_binds c297_name c297_opts c297_addr c297_refuted", "Holds if memory suffices (c297_partial, with c297_added and c297_deleted). Each allocation that fails leaves something behind: a freed array (c297_endpts, c297_binds), an endpoint without name (c297_name) or options (c297_opts), after which further calls crash; only the last leaves an endpoint that can be deleted (c297_addr).")
c("C298", "partial", "c298_partial c298_never c298_old_first c298_new_first c298_refuted", "Holds as long as the transport stays (c298_partial). The change itself always is undefined behaviour: the old container first leaves the address freed but not NULL, and the new one frees it again (c298_old_first); the new one first, the old one is deleted from the options of the other transport (c298_new_first, c298_never).")
c("C299", "partial", "c299_partial c299_given c299_same c299_refuted", "Holds if there are enough quotation marks (c299_partial). With fewer, the text between the last two is given, whichever it is (c299_given, c299_refuted). The model of the replies of C241 has the same texts (c299_same).")
c("C300", "partial", "c300_partial c300_attr c300_unsafe c300_refuted", "Holds for paths with a slash (c300_partial) and attributes with a prefix (c300_attr); exactly the others are read through NULL (c300_unsafe).")
c("C301", "partial", "c301_partial c301_once c301_reported c301_nobody c301_alone c301_free c301_dead c301_failed c301_refuted", "There was a subscription at some time during the call (c301_partial), but maybe not any more when the notification is written (c301_refuted). The other parts hold as stated (c301_once, c301_reported, c301_nobody, c301_alone, c301_free, c301_dead, c301_failed).")
c("C302", "partial", "c302_partial c302_memory c302_lost c302_twice c302_twice_later c302_refuted", "Holds with memory and without empty pieces, where the result is that of the model of TlsConn (c302_partial); with memory nothing unwritten is read (c302_memory). The size is kept when the block is lost (c302_lost), and two empty pieces free a block twice with the realloc() of glibc (c302_twice, c302_twice_later).")
c("C303", "partial", "c303_partial c303_nodes c303_order c303_errors c303_null c303_refuted", "The printed tree is right for all replies (c303_nodes, c303_order). The reply is kept unless it has several errors or an unknown type (c303_partial); all errors but the first are freed (c303_errors). NULL is read exactly for OK without an envelope (c303_null). That lyd_insert_child() appends, or inserts anywhere, are premises.")
c("C304", "partial", "c304_partial c304_found c304_refuted", "Holds where no block of 2^62 bytes can be allocated (c304_partial, c304_found); without this bound the size would become zero and the buffer be freed twice (c304_refuted). The hash is that of the model without buffers.")
c("C305", "partial", "c305_partial c305_defaults c305_never c305_refuted", "Holds if TLS 1.2 or 1.3 is configured (c305_partial). With only 1.0 or 1.1 the call succeeds with a warning and the defaults are used, of which none was configured (c305_defaults, c305_never).")
c("C306", "partial", "c306_trust c306_known c306_checks c306_succeeds c306_partial c306_known_fetched c306_unchecked c306_refuted", "The first sentence holds in full. The second holds if the store of CRLs could be allocated (c306_partial); otherwise the connection is set up without any check (c306_unchecked, c306_refuted).")
c("C307", "partial", "c307_inside c307_string c307_partial c307_when c307_too_long c307_refuted", "The lines and the buffer in full (c307_inside, c307_string). Logging is defined if the lines have less than 256 bytes (c307_partial); otherwise the string is NULL and is given for %s (c307_too_long, c307_refuted).")
c("C308", "partial", "c308_tls12 c308_partial c308_defaults c308_none c308_refuted", "Up to TLS 1.2 in full (c308_tls12). With TLS 1.3 if a suite of TLS 1.3 is configured and, for versions of OpenSSL that refuse unknown names, no other (c308_partial); otherwise the default suites of TLS 1.3 stay (c308_defaults, c308_refuted).")
c("C309", "partial", "c309_trusts c309_fails c309_partial c309_skipped c309_refuted", "Exactly the readable certificates are trusted (c309_trusts), and when loading fails is known (c309_fails). Certificates that cannot be read are skipped without a message (c309_skipped, c309_refuted); of a file at least one was read (c309_partial).")
