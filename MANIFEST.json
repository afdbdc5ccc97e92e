{
 "claims": [
  {
   "property": "C01",
   "status": "partial",
   "theorems": [
    "c01_chunked_round_trip_partial",
    "c01_any_bytes_partial",
    "c01_full_refuted"
   ],
   "note": "Every split into writes, every transport behaviour without write errors, every fragmentation, every trailing data. A message with a NUL is read to its end but received only up to the NUL (c01_any_bytes_partial, c01_full_refuted). Single writes are below 2^32-1024 bytes; above it is false (c06_huge_write_refuted)."
  },
  {
   "property": "C02",
   "status": "partial",
   "theorems": [
    "c02_eom_round_trip_partial",
    "c02_eom_round_trip_refuted",
    "c02_eom_sender"
   ],
   "note": "The full statement is false: a payload ending in a beginning of the marker is never delivered. Proved for payloads not ending in ']' or ']]>'."
  },
  {
   "property": "C03",
   "status": "partial",
   "theorems": [
    "c03_messages_in_sequence_partial",
    "c03_any_bytes_partial",
    "c03_full_refuted"
   ],
   "note": "Lists of messages of any length; as C01."
  },
  {
   "property": "C04",
   "status": "partial",
   "theorems": [
    "c04_receive_safe_alloc_partial",
    "c04_receive_safe_stream_partial",
    "c04_receive_safe_refuted",
    "c04_receive_uninit_refuted"
   ],
   "note": "The full statement is false (chunk sizes -1 and above 2^32). Proved for bounded allocators, and for streams without '-' and ten digits in a row."
  },
  {
   "property": "C05",
   "status": "partial",
   "theorems": [
    "c05_accepts_rfc6242_partial",
    "c05_delivered_bytes_partial",
    "c05_largest_chunk_refuted",
    "c05_rejects_others_refuted"
   ],
   "note": "Completeness proved except chunk size 2^32-1 (refused). Soundness is false (strtoul leniency, skipped bytes); what any delivered message must look like is proved."
  },
  {
   "property": "C06",
   "status": "partial",
   "theorems": [
    "c06_output_partial",
    "c06_huge_write_refuted",
    "c06_write_error_refuted"
   ],
   "note": "Proved for single writes below 2^32-1024 bytes and transports without write errors; both conditions are shown necessary."
  },
  {
   "property": "C07",
   "status": "proved",
   "theorems": [
    "c07_escaping",
    "c07_denotes_one_text"
   ],
   "note": "Every text, every fill level."
  },
  {
   "property": "C08",
   "status": "partial",
   "theorems": [
    "c08_server_partial",
    "c08_client_partial",
    "c08_both_peers",
    "c08_any_hello_partial",
    "c08_versions_refuted",
    "c08_blank_capability_refuted"
   ],
   "note": "The full statement is false: beginnings of the base URIs count as base capabilities, and a hello without capabilities is accepted by the server. Proved for every list without such beginnings, in every order; two peers using the library always agree on 1.1."
  },
  {
   "property": "C09",
   "status": "proved",
   "theorems": [
    "c09_client",
    "c09_server"
   ],
   "note": "Every message tree. With several session-id elements the client uses the last."
  },
  {
   "property": "C10",
   "status": "partial",
   "theorems": [
    "c10_server",
    "c10_client_partial",
    "c10_client_running_refuted"
   ],
   "note": "Server side complete. A connecting client may be handed a session that became invalid while its context was filled; running status proved otherwise."
  },
  {
   "property": "C11",
   "status": "partial",
   "theorems": [
    "c11_ids_unique_partial",
    "c11_wrap_refuted"
   ],
   "note": "Every history of fewer than 2^32 accept calls (failed handshakes consume ids too); beyond that the only accepted session can have id 0, so the statement counting accepted sessions is false."
  },
  {
   "property": "C12",
   "status": "partial",
   "theorems": [
    "c12_base",
    "c12_user_partial",
    "c12_user_first_partial",
    "c12_user_refuted",
    "c12_withdefaults_absent",
    "c12_withdefaults_present_partial",
    "c12_withdefaults_set",
    "c12_withdefaults_announced_partial",
    "c12_withdefaults_refuted"
   ],
   "note": "The full statement is false: user capabilities differing only in parameters are dropped; with-defaults is omitted without additional modes, and may list modes not configured."
  },
  {
   "property": "C49",
   "status": "partial",
   "theorems": [
    "c49_hello_safe_partial",
    "c49_hello_safe_refuted"
   ],
   "note": "The full statement is false: elements known to the context are read as opaque nodes; a server hello without capabilities aborts the client. Proved for trees of opaque nodes."
  },
  {
   "property": "C13",
   "status": "partial",
   "theorems": [
    "c13_mutex_partial",
    "c13_fifo_partial",
    "c13_progress_partial",
    "c13_no_lost_wakeup_partial",
    "c13_results_partial",
    "c13_mutex_refuted"
   ],
   "note": "Every queue size 1..255, every interleaving, provided fewer than 256 others queue while the first in line stays there. Without that proviso mutual exclusion is false (ids are bytes and wrap): refuted with a witness run."
  },
  {
   "property": "C14",
   "status": "partial",
   "theorems": [
    "c14_holds_partial",
    "c14_each_once_partial",
    "c14_results_partial",
    "c14_codes",
    "c14_refuted",
    "c14_limit_refuted"
   ],
   "note": "Every history of add, delete and clear, provided no allocation of the array fails and fewer than 65535 sessions are held on add. Without either proviso the structure is corrupted (refuted with witnesses)."
  },
  {
   "property": "C15",
   "status": "partial",
   "theorems": [
    "c15_round",
    "c15_served_partial",
    "c15_refuted"
   ],
   "note": "Each round looks at every session once, starting after the last served one; a session with pending data is returned within as many calls as there are sessions, provided every call returns a session. A session whose RPC lock fails starves the ones after it (refuted)."
  },
  {
   "property": "C16",
   "status": "partial",
   "theorems": [
    "c16_one_reply_partial",
    "c16_no_id_partial",
    "c16_at_most_one",
    "c16_silent_refuted",
    "c16_suicide_refuted",
    "c16_foreign_refuted"
   ],
   "note": "At most one reply per call for all behaviours; exactly one, with all attributes of the request, if the writer delivers it and the callback does not end its own session. Reply lost silently on a transport error, and foreign message-id attribute accepted: refuted."
  },
  {
   "property": "C17",
   "status": "partial",
   "theorems": [
    "c17_only_partial",
    "c17_never",
    "c17_terminated_partial",
    "c17_callhome",
    "c17_early_refuted",
    "c17_arrival_refuted",
    "c17_unlimited_refuted"
   ],
   "note": "The poll compares the end of its own timeout, not the current time, with the last activity: sessions are ended early by up to the poll timeout (refuted for every idle timeout). Call Home sessions are exact to the second."
  },
  {
   "property": "C18",
   "status": "partial",
   "theorems": [
    "c18_reason",
    "c18_reason_history",
    "c18_report_partial",
    "c18_report_refuted"
   ],
   "note": "Reasons: every change of a reason has its cause, for all histories. Reporting: closed never, timeout always an error; killed is reported as error and a drop met while replying is not (refuted)."
  },
  {
   "property": "C20",
   "status": "partial",
   "theorems": [
    "c20_never_processed",
    "c20_answered_partial",
    "c20_ended_partial",
    "c20_absent_refuted",
    "c20_v10_refuted"
   ],
   "note": "No operation runs unless a valid request was read. Invalid messages are answered, or end the session if the answer cannot be written. False: after a malformed frame the code goes on with an absent request; on 1.0 unparsable messages are neither answered nor end the session."
  },
  {
   "property": "C19",
   "status": "partial",
   "theorems": [
    "c19_mutex_partial",
    "c19_no_abort_partial",
    "c19_timeout",
    "c19_no_lost_wakeup_partial",
    "c19_foreign_unlock_refuted",
    "c19_unused_unlock_refuted",
    "c19_lost_wakeup_refuted"
   ],
   "note": "Any number of threads, every interleaving. Mutual exclusion if only holders unlock; a failed lock call changes nothing. An unlock by another thread is not refused (refuted); a timed-out unlock can lose the wake-up (refuted)."
  },
  {
   "property": "C44",
   "status": "partial",
   "theorems": [
    "c44_deadline",
    "c44_remaining_partial",
    "c44_expired_partial",
    "c44_wrap_refuted",
    "c44_poll_within",
    "c44_poll_plain_partial",
    "c44_early_refuted",
    "c44_event_lost_refuted",
    "c44_msgs_lock_refuted",
    "c44_loop_partial",
    "c44_loop_ends_partial"
   ],
   "note": "Deadlines exact; remaining time exact to the millisecond within 2^31 ms (wraps beyond, refuted). nc_poll ends in time for every interruption pattern, but too early or losing an event after interruptions (refuted); the client message lock lengthens the timeout (refuted for every wait)."
  },
  {
   "property": "C46",
   "status": "partial",
   "theorems": [
    "c46_status_partial",
    "c46_suffix_partial",
    "c46_zero",
    "c46_wrap_refuted"
   ],
   "note": "Every sequence of calls with fewer than 2^32 increments; beyond, the counter wraps (refuted)."
  },
  {
   "property": "C21",
   "status": "partial",
   "theorems": [
    "c21_on_the_wire_partial",
    "c21_increasing_partial",
    "c21_failed_send_partial",
    "c21_concurrent_partial",
    "c21_undisturbed_partial",
    "c21_failed_send_refuted",
    "c21_reported_id_refuted"
   ],
   "note": "Every sequence of sends with arbitrary failures, every interleaving of threads; fewer than 2^64 sends. False as stated: a send failing in the final flush uses up an id (the session is then dead), and with two threads the id reported can be that of the other thread."
  },
  {
   "property": "C22",
   "status": "partial",
   "theorems": [
    "c22_msgid_partial",
    "c22_reply_message",
    "c22_msgid_refuted"
   ],
   "note": "Every reply and session state. False as stated: an id followed by other characters is accepted."
  },
  {
   "property": "C23",
   "status": "partial",
   "theorems": [
    "c23_order_partial",
    "c23_lost_refuted"
   ],
   "note": "Every interleaving of calls and every input; equality if no call returned an error. A failed allocation loses a message (refuted)."
  },
  {
   "property": "C24",
   "status": "partial",
   "theorems": [
    "c24_type_partial",
    "c24_comment_refuted",
    "c24_prefix_refuted",
    "c24_longer_name_refuted"
   ],
   "note": "Every prolog with ordinary comments. False as stated: comments starting with >, namespace prefixes, longer names."
  },
  {
   "property": "C25",
   "status": "partial",
   "theorems": [
    "c25_defined_partial",
    "c25_version10",
    "c25_malformed_refuted"
   ],
   "note": "Always on 1.0 sessions; on 1.1 sessions four bytes from the server crash the client (refuted)."
  },
  {
   "property": "C26",
   "status": "partial",
   "theorems": [
    "c26_lookup_partial",
    "c26_lookup_refuted"
   ],
   "note": "Every list. False as stated: a capability that merely starts with the one asked for is returned."
  },
  {
   "property": "C27",
   "status": "partial",
   "theorems": [
    "c27_others_kept",
    "c27_none_left_partial",
    "c27_repeated",
    "c27_left_over_refuted"
   ],
   "note": "Other binds are always kept; with several matching binds one call leaves some (refuted), repeating the call removes all."
  },
  {
   "property": "C28",
   "status": "partial",
   "theorems": [
    "c28_single_revision_partial",
    "c28_oldest_partial",
    "c28_newest_refuted",
    "c28_no_revision_refuted"
   ],
   "note": "The claim is false: the oldest revision is asked for. True when one revision is announced."
  },
  {
   "property": "C47",
   "status": "partial",
   "theorems": [
    "c47_modules_partial",
    "c47_server_to_client_partial",
    "c47_order_refuted",
    "c47_invented_refuted"
   ],
   "note": "Every list of announcements with parameters in the usual order; composed with the server side for every module. Other orders lose the revision (refuted)."
  },
  {
   "property": "C50",
   "status": "partial",
   "theorems": [
    "c50_yl_terminated_partial",
    "c50_yl_terminated_refuted"
   ],
   "note": "Holds unless the notification modules are added by the client; then the list has no terminator (refuted for all such inputs)."
  },
  {
   "property": "C29",
   "status": "proved",
   "theorems": [
    "c29_identity",
    "c29_fixed",
    "c29_unconfigured",
    "c29_cycle_refuted"
   ],
   "note": "Every sequence of messages: one name, all successes for it with valid credentials, never changed; unconfigured users never succeed. Endpoints referring to each other make the lookup not end (that run gives no outcome)."
  },
  {
   "property": "C30",
   "status": "partial",
   "theorems": [
    "c30_all_methods_partial",
    "c30_single_partial",
    "c30_repeated_refuted"
   ],
   "note": "False: a method succeeding twice counts as two (refuted). True if no method succeeded twice, in particular with one method; every success is with a configured method."
  },
  {
   "property": "C31",
   "status": "proved",
   "theorems": [
    "c31_no_channel"
   ],
   "note": "Every sequence of messages, for channels and the netconf subsystem."
  },
  {
   "property": "C32",
   "status": "proved",
   "theorems": [
    "c32_password",
    "c32_system_password"
   ],
   "note": "Every stored string, given password and crypt function; system users with expiry."
  },
  {
   "property": "C33",
   "status": "partial",
   "theorems": [
    "c33_key_partial",
    "c33_key_defined",
    "c33_signature_partial",
    "c33_signature_refuted",
    "c33_short_refuted",
    "c33_cut_refuted",
    "c33_short_name_refuted"
   ],
   "note": "Keys whose encoding is well formed, signature states none and valid. Malformed keys are read past their end (refuted); any other signature state is accepted (refuted)."
  },
  {
   "property": "C34",
   "status": "partial",
   "theorems": [
    "c34_expansion_partial",
    "c34_rejection_partial",
    "c34_no_overflow",
    "c34_bad_token_refuted",
    "c34_lone_percent_refuted"
   ],
   "note": "Never out of bounds and exact for templates with known tokens; unknown tokens and a final percent are not rejected (refuted)."
  },
  {
   "property": "C35",
   "status": "proved",
   "theorems": [
    "c35_ring",
    "c35_any_history",
    "c35_accept_refuted"
   ],
   "note": "Every history of channel openings, status changes and frees through any member of the ring, at pointer level; starting sessions are freed with the last other one."
  },
  {
   "property": "C48",
   "status": "partial",
   "theorems": [
    "c48_keys_general",
    "c48_keys_partial",
    "c48_count_refuted",
    "c48_blanks_refuted",
    "c48_leading_blank_refuted",
    "c48_last_line_refuted"
   ],
   "note": "Exact result for every file; equals the claim for files of plain lines with fewer than 65536 keys. Blanks, last line, and number of keys refute the general claim."
  },
  {
   "property": "C36",
   "status": "partial",
   "theorems": [
    "c36_first_partial",
    "c36_refused",
    "c36_nul_refuted"
   ],
   "note": "Every entry list, chain and referenced endpoint whose certificates can be read, whose fingerprints have the form algorithm:digits, and whose names have no NUL byte (for which the claim is refuted)."
  },
  {
   "property": "C37",
   "status": "partial",
   "theorems": [
    "c37_common_name_partial",
    "c37_no_common_name_partial",
    "c37_injected_refuted",
    "c37_slash_refuted",
    "c37_mbedtls_refuted"
   ],
   "note": "Subjects with no CN= in an earlier attribute and no slash in the CN; both conditions are necessary (refuted without). With mbedTLS the claim fails for every subject with an attribute after the CN."
  },
  {
   "property": "C38",
   "status": "partial",
   "theorems": [
    "c38_trusted_partial",
    "c38_own_errors",
    "c38_faulty",
    "c38_mbedtls",
    "c38_unknown_issuer_refuted",
    "c38_expired_authority_refuted",
    "c38_undecodable_refuted"
   ],
   "note": "Every sequence of callbacks. Errors at depth above 0 other than a self-signed certificate are ignored with OpenSSL (refuted); with mbedTLS the claim is proved."
  },
  {
   "property": "C39",
   "status": "partial",
   "theorems": [
    "c39_exact",
    "c39_faithful",
    "c39_fingerprint",
    "c39_empty_refuted",
    "c39_short_fingerprint_refuted"
   ],
   "note": "Every digest of at least one byte. A configured fingerprint without digits is read past its end (refuted)."
  },
  {
   "property": "C51",
   "status": "partial",
   "theorems": [
    "c51_client_name_partial",
    "c51_authority_refuted",
    "c51_mbedtls_refuted"
   ],
   "note": "Holds when entries taking names from certificates have fingerprints of no other certificate of the chain; otherwise the name is the authority's (refuted)."
  },
  {
   "property": "C40",
   "status": "partial",
   "theorems": [
    "c40_rotation_partial",
    "c40_fixed",
    "c40_in_bounds",
    "c40_carried_refuted",
    "c40_lowered_refuted"
   ],
   "note": "Every history of failures, connections, losses and endpoint reconfigurations in which connections succeed at the first attempt on an endpoint and the attempt limit is fixed (1-255). A success after failed attempts keeps the count, and lowering the limit below the count is missed (refuted)."
  },
  {
   "property": "C41",
   "status": "partial",
   "theorems": [
    "c41_anchor_partial",
    "c41_no_anchor",
    "c41_anchor_refuted",
    "c41_future_refuted",
    "c41_zero_refuted"
   ],
   "note": "Exact characterisation of when the anchored time is right: at aligned moments and half way between; otherwise refuted. Without an anchor the wait is one period."
  },
  {
   "property": "C52",
   "status": "proved",
   "theorems": [
    "c52_idle"
   ],
   "note": "Every sequence of wake-ups; the clock, the session and the client at each are arbitrary."
  },
  {
   "property": "C42",
   "status": "partial",
   "theorems": [
    "c42_first_partial",
    "c42_next_partial",
    "c42_all_sent_partial",
    "c42_daily",
    "c42_default",
    "c42_wakeup",
    "c42_wakeup_late",
    "c42_unsorted_refuted",
    "c42_late_refuted",
    "c42_twice_refuted"
   ],
   "note": "For every table whose intervals start strictly one after the other (the default one always does), in the calendar of UTC: first and next times are the earliest scheduled ones, nothing is skipped, the expiration is passed, then daily; the thread wakes for the earliest. The order of the table is not checked (refuted), and a late thread computes times in the past (refuted)."
  },
  {
   "property": "C53",
   "status": "partial",
   "theorems": [
    "c53_stop_partial",
    "c53_change_partial",
    "c53_one_thread_partial",
    "c53_stop_refuted",
    "c53_change_refuted",
    "c53_intervals_refuted",
    "c53_two_threads_refuted",
    "c53_failed_start_refuted"
   ],
   "note": "Holds for stops and changes that come while the thread waits and for starts after the earlier thread ended; the full statement is refuted by interleavings."
  },
  {
   "property": "C43",
   "status": "partial",
   "theorems": [
    "c43_positions",
    "c43_accept",
    "c43_listens",
    "c43_memory_partial",
    "c43_abort",
    "c43_names_partial",
    "c43_add_ok",
    "c43_add_exists",
    "c43_del",
    "c43_names_refuted",
    "c43_failed_add_refuted",
    "c43_port_zero_refuted"
   ],
   "note": "Positions and the endpoint of an accepted connection: for every sequence of operations. Memory: without the removal of the listen container (C54). Names: unique if the configuration creates only names no endpoint has, UNIX sockets included, which is not checked; a failed addition stays."
  },
  {
   "property": "C54",
   "status": "partial",
   "theorems": [
    "c54_partial",
    "c54_reference_refuted",
    "c54_unix_refuted"
   ],
   "note": "For SSH and TLS endpoints without references to each other, in any number and order; refuted with references (double free) and with UNIX socket endpoints (lost, freed one kept)."
  },
  {
   "property": "C55",
   "status": "partial",
   "theorems": [
    "c55_references",
    "c55_chain_ends",
    "c55_acyclic",
    "c55_ch",
    "c55_returns",
    "c55_diverges_refuted",
    "c55_pointers_partial",
    "c55_pointers_refuted"
   ],
   "note": "Success implies what the statement says; termination is refuted (an endpoint referring into a cycle of others), with the exact condition when the check returns; the pointers are right after a successful check, and may dangle after a refused one."
  },
  {
   "property": "C56",
   "status": "partial",
   "theorems": [
    "c56_served_partial",
    "c56_no_block_partial",
    "c56_timeout",
    "c56_order",
    "c56_start",
    "c56_rebind_refuted",
    "c56_vanish_refuted",
    "c56_broken_refuted"
   ],
   "note": "While the sockets stay as they are and waiting connections are not dropped."
  },
  {
   "property": "C45",
   "status": "partial",
   "theorems": [
    "c45_permitted_partial",
    "c45_complete",
    "c45_readback",
    "c45_info",
    "c45_message",
    "c45_type_refuted"
   ],
   "note": "Every tag, argument and one of the four types: permitted type, right tag, severity and error-info, and every permitted combination can be built. A value that is none of the four types gives an empty error-type for seven tags (refuted)."
  },
  {
   "property": "C57",
   "status": "proved",
   "theorems": [
    "c57_values",
    "c57_info"
   ],
   "note": "Every error nc_err makes and every sequence of calls; an application adding session-id elements of its own with nc_err_add_info_other is excluded from the count of session-ids."
  },
  {
   "property": "C58",
   "status": "partial",
   "theorems": [
    "c58_order_partial",
    "c58_order_refuted",
    "c58_language_refuted"
   ],
   "note": "Holds for errors without application tag and path; these are put after the message (refuted). A message in another language keeps the language of the default one (refuted)."
  },
  {
   "property": "C59",
   "status": "proved",
   "theorems": [
    "c59_at_most_one",
    "c59_not_asked"
   ],
   "note": "Every life of a structure from nc_ps_new() on; the list functions are shown to be those on memory (rep_add, rep_del, rep_clear). Concurrent removal while a call serves is outside the model."
  },
  {
   "property": "C60",
   "status": "proved",
   "theorems": [
    "c60_reason",
    "c60_killed"
   ],
   "note": "Every life of a structure from nc_ps_new() on. Inactivity is measured as in C17."
  },
  {
   "property": "C61",
   "status": "proved",
   "theorems": [
    "c61_never"
   ],
   "note": "Every life of a structure from nc_ps_new() on."
  },
  {
   "property": "C62",
   "status": "proved",
   "theorems": [
    "c10_server"
   ],
   "note": "Every answer of the transport and every hello; the four accept calls."
  },
  {
   "property": "C63",
   "status": "proved",
   "theorems": [
    "c43_positions",
    "c43_accept"
   ],
   "note": "Every sequence of operations from the initial state that does not end in undefined behaviour (see C54) and every set of waiting connections."
  },
  {
   "property": "C64",
   "status": "proved",
   "theorems": [
    "c55_references",
    "c55_chain_ends",
    "c55_acyclic",
    "c55_ch"
   ],
   "note": "Every list of endpoints for which the check returns success; that it always returns is C55, refuted."
  },
  {
   "property": "C65",
   "status": "proved",
   "theorems": [
    "c27_others_kept",
    "c27_repeated"
   ],
   "note": "Every list of binds and all combinations of arguments, including absent ones."
  },
  {
   "property": "C66",
   "status": "partial",
   "theorems": [
    "c66_keys_partial",
    "c66_system_refuted",
    "c66_reference_refuted",
    "c66_order_refuted"
   ],
   "note": "Proved when every configuration on the way is valid and something is configured at the end. Refuted: after use-system-keys is removed (alone or with public-keys) the system's keys are still accepted; after a truststore reference is removed an attempt uses NULL; a change from a reference to keys visited in schema order leaves a count without an array."
  },
  {
   "property": "C67",
   "status": "partial",
   "theorems": [
    "c67_user_partial",
    "c67_cert_partial",
    "c67_refuted",
    "c67_hostkey_refuted"
   ],
   "note": "Proved for users when every configuration on the way is valid, for certificates when moreover a reference is only removed with its container. Refuted for changes of the source visited in the other order; texts of a host key that became a reference are leaked."
  },
  {
   "property": "C68",
   "status": "partial",
   "theorems": [
    "c68_certs_partial",
    "c68_refuted"
   ],
   "note": "Proved, also for nothing configured, when every configuration on the way is valid and a reference is only removed with its container. Refuted: the certificates that follow a removed reference are used as the name of a bag."
  },
  {
   "property": "C69",
   "status": "proved",
   "theorems": [
    "c69_safe",
    "c69_used"
   ],
   "note": "Every list of changes (safety) and every history of configurations with the nodes of each change in any order (the key used). The format fields are not modelled."
  },
  {
   "property": "C70",
   "status": "partial",
   "theorems": [
    "c70_inline_partial",
    "c70_references_partial",
    "c70_switch_refuted",
    "c70_order_refuted"
   ],
   "note": "Proved for references followed, after their removal, by definitions in the configuration. Refuted: a change from a definition to a reference always calls free() with the number of the key format; a change back does so unless the removal is visited first."
  },
  {
   "property": "C71",
   "status": "proved",
   "theorems": [
    "c71_inline",
    "c71_clean"
   ],
   "note": "Every sequence of changes with at most 65535 keys at a time; c71_clean says that this is the only condition."
  },
  {
   "property": "C72",
   "status": "partial",
   "theorems": [
    "c72_sent_partial",
    "c72_sent_all",
    "c72_refuted",
    "c72_all_refuted"
   ],
   "note": "Proved for all operations, for get-data when libyang takes the filters of origins or nothing follows them. Refuted: after a refused filter of an origin the loop ends, the next node resets the error, and get-data is sent without the filter. The generic request (a tree of the caller) is not modelled."
  },
  {
   "property": "C73",
   "status": "proved",
   "theorems": [
    "c73_constructed",
    "c73_accepted"
   ],
   "note": "All constructors of the 23 modelled operations. nc_rpc_modifypush_periodic() takes the period 0 (c73_period_refuted), which is not part of the statement."
  },
  {
   "property": "C74",
   "status": "proved",
   "theorems": [
    "c72_others",
    "c72_unambiguous",
    "c72_sent_all",
    "c72_buffer"
   ],
   "note": "All modelled operations but get-data; no condition."
  },
  {
   "property": "C75",
   "status": "partial",
   "theorems": [
    "c75_created",
    "c75_history_partial",
    "c75_never",
    "c75_only",
    "c75_to_client",
    "c75_kept_refuted",
    "c75_lost_refuted",
    "c75_order_refuted",
    "c75_before_refuted",
    "c75_direction_refuted"
   ],
   "note": "Proved: additions at the end and removals of the last algorithm. Refuted: a removal from any other place never gives the list without it (c75_never), removing the only one reads before the text (c75_only), insertions and moves are appended, and what a client sends is not restricted."
  },
  {
   "property": "C76",
   "status": "partial",
   "theorems": [
    "c76_created",
    "c76_never",
    "c76_full_refuted"
   ],
   "note": "Proved for additions. Removals fail always with OpenSSL (c76_never): names are stored in upper case with underscores and searched as configured. mbedTLS keeps numbers and searches them as a text, which is not modelled."
  },
  {
   "property": "C77",
   "status": "partial",
   "theorems": [
    "c77_bits",
    "c77_openssl_partial",
    "c77_gap_refuted",
    "c77_mbedtls_partial",
    "c77_mbedtls_refuted"
   ],
   "note": "Proved if the configured versions have no gap (OpenSSL), and for 1.2 and 1.3 if one of them is configured (mbedTLS). Refuted otherwise: only the least and greatest are set; with mbedTLS 1.0 and 1.1 alone set nothing."
  },
  {
   "property": "C78",
   "status": "partial",
   "theorems": [
    "c78_entries_partial",
    "c78_map_refuted",
    "c78_name_refuted"
   ],
   "note": "Proved for all changes but those of the map type or name of an entry that stays, which no function takes over."
  },
  {
   "property": "C79",
   "status": "proved",
   "theorems": [
    "c79_algorithms",
    "c79_suites",
    "c75_to_client",
    "c77_bits"
   ],
   "note": "No condition."
  },
  {
   "property": "C80",
   "status": "proved",
   "theorems": [
    "c80_entries"
   ],
   "note": "Valid changes in the sense of ietf-x509-cert-to-name; changes of a map type or a name are not part of the statement (see C78)."
  },
  {
   "property": "C81",
   "status": "proved",
   "theorems": [
    "c81_arrives",
    "c81_sequence",
    "c81_kind"
   ],
   "note": "For the receiver a memory that grants the size of the message. A reply, printed by libyang as a whole, ends with its end tag or is an empty element, and is named rpc-reply without a prefix to be taken for a reply."
  },
  {
   "property": "C82",
   "status": "proved",
   "theorems": [
    "c82_sent",
    "c82_delivered"
   ],
   "note": "The event log of the transport is infinite; a reply that libyang prints as nothing is left out."
  },
  {
   "property": "C83",
   "status": "partial",
   "theorems": [
    "c83_hello",
    "c83_data_partial",
    "c81_time_refuted"
   ],
   "note": "Capabilities may be any texts; the seams are safe. The time of a notification is neither checked nor escaped (refuted); what libyang prints is not modelled."
  },
  {
   "property": "C84",
   "status": "partial",
   "theorems": [
    "c84_let_in",
    "c84_connected_partial",
    "c84_connected_refuted"
   ],
   "note": "Whom the server let in is connected; the converse only if the private keys can be read: otherwise the answer to the question whether a key would do is taken for success (refuted)."
  },
  {
   "property": "C85",
   "status": "proved",
   "theorems": [
    "c85_accepted",
    "c85_stored",
    "c85_remembered",
    "c85_first"
   ],
   "note": "Built without DNSSEC; answers of libssh are arbitrary."
  },
  {
   "property": "C86",
   "status": "proved",
   "theorems": [
    "c86_order"
   ],
   "note": "The answers of the server and of the callbacks are arbitrary."
  },
  {
   "property": "C87",
   "status": "partial",
   "theorems": [
    "c87_all_partial",
    "c87_gets_in_partial",
    "c87_all_refuted"
   ],
   "note": "Passwords and keys with the preference 0 are never tried (refuted); proved for positive preferences."
  },
  {
   "property": "C88",
   "status": "partial",
   "theorems": [
    "c88_added",
    "c88_got",
    "c88_removed_partial",
    "c88_failed_partial",
    "c88_failed_refuted",
    "c88_twice_partial",
    "c88_twice_refuted",
    "c88_index_refuted",
    "c88_encrypted_partial",
    "c88_encrypted_refuted"
   ],
   "note": "Refuted: a failed call may leave the pair added, relative paths can be added twice, negative indices are not refused, PKCS #8 encryption is not noticed."
  },
  {
   "property": "C89",
   "status": "partial",
   "theorems": [
    "c89_partial",
    "c89_refuted"
   ],
   "note": "If the channel is refused, the lock stays taken (refuted)."
  },
  {
   "property": "C90",
   "status": "partial",
   "theorems": [
    "c90_used_partial",
    "c90_none",
    "c90_from",
    "c90_last_refuted",
    "c90_rest_refuted",
    "c90_pem_refuted",
    "c90_memory_refuted"
   ],
   "note": "Refuted: if the last distribution point fails, so does the connection; data of a broken download go in front of the next one; with mbedTLS PEM is read beyond its end."
  },
  {
   "property": "C91",
   "status": "partial",
   "theorems": [
    "c91_client_partial",
    "c91_client_once",
    "c91_client_socket_partial",
    "c91_client_session",
    "c91_server_partial",
    "c91_server_socket_partial",
    "c91_server_session",
    "c91_client_socket_refuted",
    "c91_key_refuted",
    "c91_double_refuted"
   ],
   "note": "Refuted: a failed handshake leaves the socket of a client open; a key that does not fit leaves everything allocated with OpenSSL; with mbedTLS a server may close the socket twice."
  },
  {
   "property": "C92",
   "status": "proved",
   "theorems": [
    "c92_verified",
    "c92_name",
    "c92_completed"
   ],
   "note": "What the TLS library verifies when told so is trusted. Call Home without a host name of the bind has no name verified, as documented."
  },
  {
   "property": "C93",
   "status": "partial",
   "theorems": [
    "c93_force_partial",
    "c93_verified",
    "c93_force_refuted",
    "c93_memory_refuted",
    "c93_name_refuted"
   ],
   "note": "Proved for OpenSSL; with mbedTLS the defaults are set afterwards, names of TLS 1.3 suites are wrong and suites are written beyond allocated memory (refuted)."
  },
  {
   "property": "C94",
   "status": "proved",
   "theorems": [
    "c91_client_once",
    "c91_client_session",
    "c91_server_session"
   ],
   "note": "Reference counts of OpenSSL are folded as described in TlsConn.v."
  },
  {
   "property": "C95",
   "status": "proved",
   "theorems": [
    "c20_never_processed"
   ],
   "note": "For every state and oracle of PsPoll."
  },
  {
   "property": "C96",
   "status": "proved",
   "theorems": [
    "c16_at_most_one"
   ],
   "note": "last_event_session is a position of the structure, which every operation keeps."
  },
  {
   "property": "C97",
   "status": "proved",
   "theorems": [
    "c18_reason",
    "c18_reason_history"
   ],
   "note": "Causes are spelt out in the relation cause of Prop_PsTerm."
  },
  {
   "property": "C98",
   "status": "proved",
   "theorems": [
    "c17_never",
    "c17_callhome"
   ],
   "note": "Narrower than a property above of which it is the part that holds."
  },
  {
   "property": "C99",
   "status": "proved",
   "theorems": [
    "c10_server"
   ],
   "note": "Narrower than a property above of which it is the part that holds."
  },
  {
   "property": "C100",
   "status": "proved",
   "theorems": [
    "c27_others_kept",
    "c27_repeated"
   ],
   "note": "Narrower than a property above of which it is the part that holds."
  },
  {
   "property": "C101",
   "status": "proved",
   "theorems": [
    "c43_positions",
    "c43_accept"
   ],
   "note": "Narrower than a property above of which it is the part that holds."
  },
  {
   "property": "C102",
   "status": "proved",
   "theorems": [
    "c55_references",
    "c55_chain_ends",
    "c55_acyclic"
   ],
   "note": "Success with any amount of fuel; that the check may not return is C55."
  },
  {
   "property": "C103",
   "status": "proved",
   "theorems": [
    "c39_exact",
    "c39_faithful",
    "c39_fingerprint"
   ],
   "note": "Narrower than a property above of which it is the part that holds."
  },
  {
   "property": "C104",
   "status": "proved",
   "theorems": [
    "c19_timeout"
   ],
   "note": "Narrower than a property above of which it is the part that holds."
  },
  {
   "property": "C105",
   "status": "proved",
   "theorems": [
    "c15_round"
   ],
   "note": "Narrower than a property above of which it is the part that holds."
  },
  {
   "property": "C106",
   "status": "proved",
   "theorems": [
    "c84_let_in"
   ],
   "note": "Narrower than a property above of which it is the part that holds."
  },
  {
   "property": "C107",
   "status": "proved",
   "theorems": [
    "c83_hello"
   ],
   "note": "Narrower than a property above of which it is the part that holds."
  },
  {
   "property": "C108",
   "status": "proved",
   "theorems": [
    "c12_base"
   ],
   "note": "Narrower than a property above of which it is the part that holds."
  },
  {
   "property": "C109",
   "status": "proved",
   "theorems": [
    "c25_version10"
   ],
   "note": "Narrower than a property above of which it is the part that holds."
  },
  {
   "property": "C110",
   "status": "proved",
   "theorems": [
    "c08_both_peers"
   ],
   "note": "Each capability shows as a text of a hello; ids are 1 to 2^32-1."
  },
  {
   "property": "C111",
   "status": "partial",
   "theorems": [
    "c111_mbedtls_partial",
    "c111_openssl_refuted",
    "c111_zero_refuted",
    "c112_encoding"
   ],
   "note": "RSA is C112. Curves: proved for mbedTLS; with OpenSSL the blob has the prime of the field in place of the point and is the same for all keys (refuted)."
  },
  {
   "property": "C112",
   "status": "proved",
   "theorems": [
    "c112_encoding",
    "c112_distinct",
    "c112_server"
   ],
   "note": "real_rsa is: both numbers not 0 and of a size that fits into 32 bits of length."
  },
  {
   "property": "C113",
   "status": "partial",
   "theorems": [
    "c113_ssh2_partial",
    "c113_header_refuted",
    "c113_continued_refuted",
    "c113_success_refuted"
   ],
   "note": "Proved for files whose headers are comments of one line; other headers become part of the key (refuted), and a key that cannot be written is success without a key (refuted)."
  },
  {
   "property": "C114",
   "status": "proved",
   "theorems": [
    "c114_private",
    "c114_certificate",
    "c114_formats"
   ],
   "note": "Assumes that the libraries write PEM (RFC 7468, writes_pem); which keys they read is theirs."
  },
  {
   "property": "C115",
   "status": "partial",
   "theorems": [
    "c115_partial",
    "c115_left_refuted",
    "c115_empty_refuted"
   ],
   "note": "Proved if fdopen(), strdup() and unlink() succeed; otherwise the file, with the key, stays (refuted)."
  },
  {
   "property": "C116",
   "status": "partial",
   "theorems": [
    "c116_mbedtls_partial",
    "c116_openssl_partial",
    "c116_two_refuted",
    "c116_three_refuted",
    "c116_reasons_refuted",
    "c116_rest_refuted",
    "c116_openssl_null_refuted",
    "c116_openssl_union_refuted"
   ],
   "note": "mbedTLS: proved for one distribution point per extension with nothing but a full name; refuted for more (URIs twice, errors). OpenSSL: proved if all points have a full name; otherwise a null pointer or the wrong member of a union is used (refuted)."
  },
  {
   "property": "C117",
   "status": "partial",
   "theorems": [
    "c117_defined_partial",
    "c117_inside",
    "c117_free_refuted",
    "c117_oid_refuted"
   ],
   "note": "Proved except for two cases, both refuted: a directory name before a name of unsupported kind is freed twice, and an OID that begins with the one looked for and a zero is compared beyond the constant."
  },
  {
   "property": "C118",
   "status": "proved",
   "theorems": [
    "c117_inside"
   ],
   "note": "The functions of mbedTLS called are written out as far as they move pointers."
  },
  {
   "property": "C119",
   "status": "partial",
   "theorems": [
    "c119_options_follow_configuration_partial",
    "c119_from_start_partial",
    "c119_endpoint_removal_refuted",
    "c119_no_thread_refuted",
    "c119_transport_change_refuted",
    "c119_options",
    "c119_each_endpt",
    "c119_defaults_refuted"
   ],
   "note": "Proved for all histories of diffs, data and dispatching in which only the last endpoint of a client is removed, clients are removed after their thread was dispatched and a transport is removed before another one is set; for the leafs that the diffs mention. Refuted otherwise: memory of a removed endpoint is used, NULL dereferenced, options of the wrong type freed, and max-wait and keepalive parameters are 0 instead of their defaults."
  },
  {
   "property": "C120",
   "status": "proved",
   "theorems": [
    "c120_applied_in_order"
   ],
   "note": "For the Call Home subtree."
  },
  {
   "property": "C121",
   "status": "proved",
   "theorems": [
    "c121_data_replace_everything",
    "c121_operations_refused"
   ],
   "note": ""
  },
  {
   "property": "C122",
   "status": "partial",
   "theorems": [
    "c122_removal_safe_partial",
    "c122_removal_safe_refuted",
    "c122_thread_first_refuted",
    "c122_assert_refuted",
    "c122_no_thread_refuted",
    "c122_failed_wait_refuted",
    "c122_two_threads_refuted"
   ],
   "note": "Proved for all executions in which a client is dispatched once, removed after that, no wait fails, and the thread does not look the client up between its removal and the signal nor where the code asserts that the client exists. Each of these is shown necessary by an execution that misuses memory, aborts, or leaves a thread behind."
  },
  {
   "property": "C123",
   "status": "proved",
   "theorems": [
    "c123_client_not_used_after_removal",
    "c123_one_user",
    "c123_removal_waits",
    "c123_told_thread_ends",
    "c123_told_thread_can_go_on"
   ],
   "note": "A step is the code between two accesses to the shared state; connecting and waiting for the session's condition variable are single steps. The bound on the number of steps holds if the program is not aborted (see C122)."
  },
  {
   "property": "C124",
   "status": "partial",
   "theorems": [
    "c124_modules_loaded_partial",
    "c124_not_implemented_refuted",
    "c124_other_module_refuted"
   ],
   "note": "Proved if lys_set_implemented() succeeds and sources give the module that was asked for; features if the server lists every implemented module once. Refuted otherwise: the session is not marked and the module is missing."
  },
  {
   "property": "C125",
   "status": "proved",
   "theorems": [
    "c125_callback_restored"
   ],
   "note": ""
  },
  {
   "property": "C126",
   "status": "proved",
   "theorems": [
    "c126_sources"
   ],
   "note": ""
  },
  {
   "property": "C127",
   "status": "partial",
   "theorems": [
    "c127_running_partial",
    "c127_dead_session_refuted"
   ],
   "note": "Proved for sessions with a context of their own whose server has a usable yang-library. Refuted in general: the session may have broken while a module was asked for and found by other means."
  },
  {
   "property": "C128",
   "status": "partial",
   "theorems": [
    "c128_base_module_partial",
    "c128_not_listed_refuted",
    "c128_base_only_refuted"
   ],
   "note": "Proved: after a successful fill the module is implemented. Refuted: the fill fails for all servers that do not list ietf-netconf as a module in their capabilities."
  },
  {
   "property": "C129",
   "status": "partial",
   "theorems": [
    "c129_options_restored_partial",
    "c129_options_refuted"
   ],
   "note": "Proved if the options were not set before; otherwise they are lost."
  },
  {
   "property": "C130",
   "status": "proved",
   "theorems": [
    "c130_sockets_owned",
    "c130_nothing_left",
    "c130_client"
   ],
   "note": ""
  },
  {
   "property": "C131",
   "status": "partial",
   "theorems": [
    "c131_host_true",
    "c131_host_partial",
    "c131_host_refuted"
   ],
   "note": "Proved: a host that is told is the right one, and it is told unless a pending socket has the descriptor 0, for which it is NULL."
  },
  {
   "property": "C132",
   "status": "partial",
   "theorems": [
    "c132_configured_address_partial",
    "c132_configured_address_refuted"
   ],
   "note": "Proved if the address is never changed with a socket pending. Refuted otherwise: the pending socket is kept when the address is changed, and the session goes to the old host."
  },
  {
   "property": "C133",
   "status": "proved",
   "theorems": [
    "c133_client_first_address"
   ],
   "note": ""
  },
  {
   "property": "C134",
   "status": "partial",
   "theorems": [
    "c134_reachable_connects_partial",
    "c134_reachable_connects_refuted"
   ],
   "note": "Proved for an endpoint without a pending socket if no address before the one that answers times out. Refuted: if the first address never answers, the other ones are never tried, whatever the number of attempts."
  },
  {
   "property": "C135",
   "status": "proved",
   "theorems": [
    "c135_keepalives"
   ],
   "note": ""
  },
  {
   "property": "C136",
   "status": "partial",
   "theorems": [
    "c136_nodelay_partial",
    "c136_nodelay_refuted"
   ],
   "note": "Proved for endpoints without a pending socket at the attempts. Refuted: it is not set on a socket that was pending."
  },
  {
   "property": "C137",
   "status": "partial",
   "theorems": [
    "c137_stores_follow_partial",
    "c137_public_key_refuted",
    "c137_unknown_format_refuted"
   ],
   "note": "Proved if the leaf public-key of an asymmetric key is not removed alone, the formats are known, and lists have at most 65535 entries. Refuted otherwise: the removed public key stays; a key of an unknown format is used as one of the format before."
  },
  {
   "property": "C138",
   "status": "proved",
   "theorems": [
    "c138_memory",
    "c138_all_freed"
   ],
   "note": ""
  },
  {
   "property": "C139",
   "status": "proved",
   "theorems": [
    "c139_data_replace"
   ],
   "note": "About the part of the call that handles the keystore and the truststore; netconf-server is in C66-C71 and C119-C121."
  },
  {
   "property": "C140",
   "status": "partial",
   "theorems": [
    "c140_message",
    "c140_heard_partial",
    "c140_given_up_partial",
    "c140_zero_refuted"
   ],
   "note": "Proved for a timeout other than 0, with the precision of a millisecond. Refuted for 0: the wait ends after the first look at the socket."
  },
  {
   "property": "C141",
   "status": "proved",
   "theorems": [
    "c141_questions"
   ],
   "note": ""
  },
  {
   "property": "C142",
   "status": "partial",
   "theorems": [
    "c142_success",
    "c142_failed",
    "c142_responses_partial",
    "c142_responses_refuted"
   ],
   "note": "The array is right if all messages are questions. Refuted otherwise: answers are at the places of the questions counted without the information messages, and a module that reads the response of its message reads after the array."
  },
  {
   "property": "C143",
   "status": "proved",
   "theorems": [
    "c143_decision",
    "c143_calls"
   ],
   "note": "A client whose connection is lost or whose time is over fails the conversation (C142); what then is returned is up to the modules."
  },
  {
   "property": "C144",
   "status": "proved",
   "theorems": [
    "c144_system"
   ],
   "note": ""
  },
  {
   "property": "C145",
   "status": "partial",
   "theorems": [
    "c145_authenticated",
    "c145_ends",
    "c145_no_limit",
    "c145_limit_partial",
    "c145_limit_refuted"
   ],
   "note": "Proved exactly when a client is authenticated; the time is checked after each request. Refuted for keyboard-interactive: each exchange, and each conversation in it, has the whole timeout again, so that authentication can take any multiple of it."
  },
  {
   "property": "C146",
   "status": "partial",
   "theorems": [
    "c146_no_use_after_free_partial",
    "c146_freed_last_partial",
    "c146_two_calls_refuted",
    "c146_slow_callback_refuted"
   ],
   "note": "Proved if the threads react within the second nc_session_free() waits, and dispatching calls are made one by one or no pthread_create() fails. Refuted otherwise: with a longer callback, and with two calls of which one fails."
  },
  {
   "property": "C147",
   "status": "partial",
   "theorems": [
    "c147_not_running_partial",
    "c147_running_partial",
    "c147_running_refuted"
   ],
   "note": "0 is right under the conditions of C146. 1 is right if also no thread ended by itself: the flag stays set after notificationComplete or a broken session (refuted)."
  },
  {
   "property": "C148",
   "status": "proved",
   "theorems": [
    "c148_callbacks",
    "c148_each"
   ],
   "note": ""
  },
  {
   "property": "C149",
   "status": "proved",
   "theorems": [
    "c149_quit"
   ],
   "note": ""
  },
  {
   "property": "C150",
   "status": "partial",
   "theorems": [
    "c150_lifetime_partial",
    "c150_lifetime_refuted"
   ],
   "note": "Proved if no thread changes its context or ends while another does, contexts that are set are used by some thread, and there are less than 2^32 - 1 threads. Refuted without the first: the counter is not atomic, so contexts leak or are freed while they are used."
  },
  {
   "property": "C151",
   "status": "partial",
   "theorems": [
    "c151_settings_partial",
    "c151_defaults_partial",
    "c151_defaults_refuted"
   ],
   "note": "Sharing is proved under the conditions of C150; defaults without conditions, but not for keepalives, which are on only in the main thread (refuted)."
  },
  {
   "property": "C152",
   "status": "partial",
   "theorems": [
    "c152_follows_partial",
    "c152_timeout_refuted",
    "c152_order_refuted"
   ],
   "note": "Proved without the order of host keys, if auth-timeout and the container keyboard-interactive of a staying user are not removed, the transport stays and lists have at most 65535 entries. Refuted: removed auth-timeout, order of host keys; for keyboard-interactive see C154."
  },
  {
   "property": "C153",
   "status": "partial",
   "theorems": [
    "c153_memory_partial",
    "c250_full_refuted"
   ],
   "note": "If the transport of an endpoint stays and lists have at most 65535 entries. Refuted for changes of the transport in the model of C250."
  },
  {
   "property": "C154",
   "status": "partial",
   "theorems": [
    "c154_authenticated_partial",
    "c154_others_partial",
    "c154_keyboard_refuted"
   ],
   "note": "Composition of C152 with C29. Under the conditions of C152, with local users only and no endpoint reference; which public keys a user has is left to the stores. Refuted: keyboard-interactive removed by a diff stays enabled."
  },
  {
   "property": "C155",
   "status": "partial",
   "theorems": [
    "c155_add_partial",
    "c155_refused",
    "c155_apostrophe_refuted"
   ],
   "note": "Proved for identifiers without an apostrophe; refuted with one (nothing can be added)."
  },
  {
   "property": "C156",
   "status": "partial",
   "theorems": [
    "c156_del_partial",
    "c156_all_refuted",
    "c156_user_ref_refuted",
    "c156_apostrophe_refuted"
   ],
   "note": "Proved for identifiers without an apostrophe and all functions but nc_server_config_del_ssh_truststore_ref(). Refuted: without a name nothing is removed; nc_server_config_del_ssh_truststore_ref() never removes anything; a name with apostrophes removes a node of another endpoint."
  },
  {
   "property": "C157",
   "status": "partial",
   "theorems": [
    "c157_created_partial",
    "c157_connection_refuted",
    "c157_stores_refuted"
   ],
   "note": "Proved for identifiers without an apostrophe. Refuted for the connection type of Call Home clients (always fail) and for the keystore and the truststore (always fail, and the new tree is lost)."
  },
  {
   "property": "C158",
   "status": "proved",
   "theorems": [
    "c158_kept",
    "c158_keystore_refuted"
   ],
   "note": "The second theorem: without the container (a keystore only) the caller's tree is lost."
  },
  {
   "property": "C159",
   "status": "proved",
   "theorems": [
    "c159_requests_freed_safely"
   ],
   "note": "The caller hands over each block once (NoDup) with NC_PARAMTYPE_FREE."
  },
  {
   "property": "C160",
   "status": "partial",
   "theorems": [
    "c160_nothing_lost_partial",
    "c160_excluded_change_refuted"
   ],
   "note": "Refuted for nc_rpc_establishpush_onchange() copying a list of excluded changes when an allocation fails; proved for all others and for it without failures."
  },
  {
   "property": "C161",
   "status": "partial",
   "theorems": [
    "c161_request_has_its_parameters_partial",
    "c161_origin_filters",
    "c161_made_iff_acceptable",
    "c161_lost_filter_refuted"
   ],
   "note": "Refuted if a string cannot be copied (the request is made without it, e.g. get-config without its filter); proved if no allocation fails or nothing is copied, and for the origin filters of get-data always."
  },
  {
   "property": "C162",
   "status": "proved",
   "theorems": [
    "c162_replies_freed_once",
    "c162_no_reply"
   ],
   "note": "Each error is handed over once (NoDup)."
  },
  {
   "property": "C163",
   "status": "partial",
   "theorems": [
    "c163_notifications_freed_once_partial",
    "c163_eventtime_refuted"
   ],
   "note": "Safe always; refuted: if the tree cannot be copied, the copy of the time is lost."
  },
  {
   "property": "C164",
   "status": "proved",
   "theorems": [
    "c164_left_as_found",
    "c164_not_shown"
   ],
   "note": "For calls without undefined behaviour (C165)."
  },
  {
   "property": "C165",
   "status": "partial",
   "theorems": [
    "c165_only_the_line",
    "c165_line_returned_partial",
    "c165_too_long_refuted"
   ],
   "note": "Proved for lines of less than 2^30 characters (2^31 for interactive answers); refuted beyond (the length of the buffer overflows)."
  },
  {
   "property": "C166",
   "status": "proved",
   "theorems": [
    "c166_vouched",
    "c166_accepted"
   ],
   "note": ""
  },
  {
   "property": "C167",
   "status": "partial",
   "theorems": [
    "c167_found_partial",
    "c167_two_keys_refuted"
   ],
   "note": "Proved if no other record has the algorithm and type of the key; refuted for a host with two keys of the same type (only the first record is compared)."
  },
  {
   "property": "C168",
   "status": "partial",
   "theorems": [
    "c168_told_partial",
    "c168_other_types_refuted"
   ],
   "note": "Proved for RSA, DSA and ECDSA keys; refuted for others (Ed25519): nothing is looked up, and the user is told that a matching fingerprint was found."
  },
  {
   "property": "C169",
   "status": "partial",
   "theorems": [
    "c169_within_records_partial",
    "c169_short_record_refuted"
   ],
   "note": "Proved if all SSHFP records have at least 22 octets; refuted otherwise (the length of a record is never looked at)."
  },
  {
   "property": "C170",
   "status": "partial",
   "theorems": [
    "c170_intervals_partial",
    "c170_memory_refuted"
   ],
   "note": "Proved if memory is never short for an interval; refuted otherwise (all intervals are gone, their number is not, and the next change reads at NULL)."
  },
  {
   "property": "C171",
   "status": "partial",
   "theorems": [
    "c171_about_it_partial",
    "c171_distinct_partial",
    "c171_apostrophe_refuted",
    "c171_same_path_refuted"
   ],
   "note": "Proved for names without apostrophes; refuted for others (names are put into the XPath as they are)."
  },
  {
   "property": "C172",
   "status": "partial",
   "theorems": [
    "c172_all",
    "c172_watched_partial",
    "c172_first_partial",
    "c172_default_first",
    "c172_broken_refuted"
   ],
   "note": "Proved if all certificates can be read; refuted otherwise (one that cannot be read ends the thread, and none is watched)."
  },
  {
   "property": "C173",
   "status": "partial",
   "theorems": [
    "c173_released_partial",
    "c173_memory_refuted"
   ],
   "note": "Proved for certificates that cannot be read; refuted if memory or the calendar fails (times are lost, or the array is read at NULL)."
  },
  {
   "property": "C174",
   "status": "partial",
   "theorems": [
    "c174_there_partial",
    "c174_cut_refuted"
   ],
   "note": "Proved for addresses that do not have exactly 107 characters; refuted for those (the last character is cut off: another file is deleted and replaced by the socket)."
  },
  {
   "property": "C175",
   "status": "proved",
   "theorems": [
    "c175_permissions_first",
    "c175_success"
   ],
   "note": ""
  },
  {
   "property": "C176",
   "status": "partial",
   "theorems": [
    "c176_closed_partial",
    "c176_removed_partial",
    "c176_left_refuted"
   ],
   "note": "Proved: the descriptor is closed after a failure; nothing is left after removal for addresses of at most 106 characters. Refuted: the file stays after a failed chmod(), chown() or listen(), and after removal if the address has 107 characters."
  },
  {
   "property": "C177",
   "status": "partial",
   "theorems": [
    "c177_reached_partial",
    "c177_server_partial",
    "c177_cut_refuted"
   ],
   "note": "Proved up to 107 characters (106 for reaching the server); refuted beyond (the client connects to the file named by the first 107 characters)."
  },
  {
   "property": "C178",
   "status": "proved",
   "theorems": [
    "c178_name",
    "c178_known"
   ],
   "note": ""
  },
  {
   "property": "C179",
   "status": "partial",
   "theorems": [
    "c179_released_partial",
    "c179_unknown_user_refuted"
   ],
   "note": "Proved but for users whose entry is not found; refuted for those (the buffer is lost with each connection)."
  },
  {
   "property": "C180",
   "status": "proved",
   "theorems": [
    "c180_answer",
    "c180_found",
    "c180_none"
   ],
   "note": ""
  },
  {
   "property": "C181",
   "status": "partial",
   "theorems": [
    "c181_whole_partial",
    "c181_cut_refuted"
   ],
   "note": "Proved if a failing printer leaves nothing; refuted otherwise (its result is ignored, half a module is sent)."
  },
  {
   "property": "C182",
   "status": "partial",
   "theorems": [
    "c182_unique_partial",
    "c182_implemented_partial",
    "c182_several_refuted"
   ],
   "note": "Refuted: the implemented or latest one is sent. Proved: what is sent if one is meant, or one is implemented."
  },
  {
   "property": "C183",
   "status": "partial",
   "theorems": [
    "c183_announced_partial",
    "c183_import_only_refuted"
   ],
   "note": "Proved for modules with a revision or implemented; refuted for modules without revision that are only imported, beside an implemented one of the same name."
  },
  {
   "property": "C184",
   "status": "partial",
   "theorems": [
    "c184_inside_partial",
    "c184_outside_refuted"
   ],
   "note": "Proved for names without slashes; refuted: a server that announces module=../../../etc/x makes the client write there."
  },
  {
   "property": "C185",
   "status": "partial",
   "theorems": [
    "c185_kept_partial",
    "c185_overwritten_refuted"
   ],
   "note": "Proved for names without slashes if libyang finds files in the directory; refuted otherwise (files with suffix .yang are overwritten)."
  },
  {
   "property": "C186",
   "status": "partial",
   "theorems": [
    "c186_same_partial",
    "c186_cut_refuted"
   ],
   "note": "Proved if all was written; refuted otherwise: results of fputs() and fclose() are ignored and the part is used ever after."
  },
  {
   "property": "C187",
   "status": "partial",
   "theorems": [
    "c187_read",
    "c187_lost",
    "c187_released_partial",
    "c187_norev_refuted"
   ],
   "note": "Refuted: the path is lost if the file found has no revision and one is wanted."
  },
  {
   "property": "C188",
   "status": "partial",
   "theorems": [
    "c188_free_partial",
    "c188_static_refuted",
    "c188_undefined"
   ],
   "note": "Refuted: free() is called on any text (undefined for constant ones), the function of the user never. Proved for texts of malloc()."
  },
  {
   "property": "C189",
   "status": "partial",
   "theorems": [
    "c189_once_partial",
    "c189_error_refuted"
   ],
   "note": "Proved unless a lock fails with an error; refuted then (nothing is released and the caller cannot know)."
  },
  {
   "property": "C190",
   "status": "proved",
   "theorems": [
    "c190_in_order",
    "c190_last"
   ],
   "note": ""
  },
  {
   "property": "C191",
   "status": "proved",
   "theorems": [
    "c191_told",
    "c191_quiet"
   ],
   "note": "If the request can be created."
  },
  {
   "property": "C192",
   "status": "partial",
   "theorems": [
    "c192_ends_partial",
    "c192_endless_refuted",
    "c192_notifications"
   ],
   "note": "Proved if finitely many messages come, with a bound; refuted: as long as notifications keep coming before the timeout of each reading, the client does not return."
  },
  {
   "property": "C193",
   "status": "partial",
   "theorems": [
    "c193_no_abort_partial",
    "c193_abort_refuted"
   ],
   "note": "Proved if the context is the session's own or no other session has data for schema mounts; refuted: the assertion fails when a session with a context of the user is closed before the first session, which has such data."
  },
  {
   "property": "C194",
   "status": "partial",
   "theorems": [
    "c194_kept_partial",
    "c194_read_back_partial",
    "c194_full_refuted"
   ],
   "note": "Proved for all sequences of calls in which no index is negative and there is memory for the first of two strings and for the table of pairs (see C195); all other allocations may fail."
  },
  {
   "property": "C195",
   "status": "partial",
   "theorems": [
    "c195_safe_partial",
    "c195_cert_refuted",
    "c195_ca_refuted",
    "c195_table_refuted",
    "c195_index_refuted",
    "c195_full_refuted"
   ],
   "note": "Proved under the conditions of C194; refuted without them: key_path and ca_dir dangle after a failed strdup(), the table of pairs is NULL with a count after a failed realloc(), a negative index is not refused."
  },
  {
   "property": "C196",
   "status": "partial",
   "theorems": [
    "c196_nothing_left_partial",
    "c196_table_refuted"
   ],
   "note": "Proved under the conditions of C194; refuted without memory for the table of pairs."
  },
  {
   "property": "C197",
   "status": "partial",
   "theorems": [
    "c197_separate_partial",
    "c197_full_refuted"
   ],
   "note": "Proved (non-interference) under the conditions of C194; without them a call of the other side can end in undefined behaviour."
  },
  {
   "property": "C198",
   "status": "partial",
   "theorems": [
    "c198_fixed_order_partial",
    "c198_documented_refuted"
   ],
   "note": "Refuted: the order is the opposite (proved for all servers)."
  },
  {
   "property": "C199",
   "status": "partial",
   "theorems": [
    "c199_ends_partial",
    "c199_endless",
    "c199_mbed_refuted"
   ],
   "note": "Proved for descriptors, UNIX sockets, SSH and OpenSSL; refuted for MbedTLS, where nc_write() goes on for ever whatever the errors are."
  },
  {
   "property": "C200",
   "status": "partial",
   "theorems": [
    "c200_ends_partial",
    "c200_until_timeout",
    "c200_mbed_refuted"
   ],
   "note": "Proved for descriptors, UNIX sockets, SSH and OpenSSL; refuted for MbedTLS, where only the time limit ends reading."
  },
  {
   "property": "C201",
   "status": "partial",
   "theorems": [
    "c201_openssl",
    "c201_mbed_partial",
    "c201_mbed_endless",
    "c201_mbed_refuted"
   ],
   "note": "Proved for OpenSSL; refuted for MbedTLS, where it returns only once the library gives anything but WANT_READ or WANT_WRITE (proved)."
  },
  {
   "property": "C202",
   "status": "partial",
   "theorems": [
    "c202_ends_partial",
    "c202_until_timeout",
    "c202_mbed_refuted"
   ],
   "note": "Proved for OpenSSL, and for a client with MbedTLS if poll() tells that the connection is broken; refuted for a server with MbedTLS, which goes on until the time is over, for ever without a limit."
  },
  {
   "property": "C203",
   "status": "partial",
   "theorems": [
    "c203_same_partial",
    "c203_reason",
    "c203_counted",
    "c203_errors_refuted"
   ],
   "note": "Proved for everything but errors of the system other than EAGAIN and EINTR, for which it is refuted. How a situation shows in each library (SSL_get_error, codes of MbedTLS) is an assumption stated in the definitions on_ossl and on_mbed."
  },
  {
   "property": "C204",
   "status": "partial",
   "theorems": [
    "c204_alive_partial",
    "c204_gone",
    "c204_signal_refuted",
    "c204_full_refuted"
   ],
   "note": "Proved for SSH and MbedTLS, and for the others if poll() sees the end of the connection; refuted if the peer closes after the poll(), or closes only the descriptor written to. That libssh raises no signal is assumed."
  },
  {
   "property": "C205",
   "status": "partial",
   "theorems": [
    "c205_connect",
    "c205_libssh_partial",
    "c205_callhome_partial",
    "c205_connected_refuted",
    "c205_user_refuted",
    "c205_callhome_refuted",
    "c205_memory_refuted",
    "c205_full_refuted"
   ],
   "note": "Proved for nc_connect_ssh() without conditions; for the others if the library authenticates, the user is known and there is memory for the session. Refuted otherwise: host and user name, buffer, socket and SSH session are lost."
  },
  {
   "property": "C206",
   "status": "proved",
   "theorems": [
    "c206_connect",
    "c206_libssh",
    "c206_callhome"
   ],
   "note": "All runs; an SSH session given that is connected has a host. That ssh_free() does not close a socket it was given is assumed of libssh."
  },
  {
   "property": "C207",
   "status": "proved",
   "theorems": [
    "c207_connect",
    "c207_libssh",
    "c207_callhome"
   ],
   "note": "All successful runs."
  },
  {
   "property": "C208",
   "status": "partial",
   "theorems": [
    "c208_unharmed_partial",
    "c208_locked_refuted",
    "c208_full_refuted"
   ],
   "note": "Proved for the ring always, for the lock unless opening the channel is what fails. Refuted then: the lock is never released and no session of the ring can be used or closed in order."
  },
  {
   "property": "C209",
   "status": "partial",
   "theorems": [
    "c209_joined_partial",
    "c209_user_refuted",
    "c209_full_refuted"
   ],
   "note": "Proved if host and user of the first session are known and there is memory for copies. Refuted otherwise: a session made on an authenticated SSH session without a user name has none, and strdup(NULL) follows."
  },
  {
   "property": "C210",
   "status": "proved",
   "theorems": [
    "c210_connect",
    "c210_libssh",
    "c210_callhome"
   ],
   "note": "All runs, as an order of events."
  },
  {
   "property": "C211",
   "status": "partial",
   "theorems": [
    "c211_user_partial",
    "c211_real_user_refuted"
   ],
   "note": "Proved if the real and the effective user are the same. Refuted otherwise: getuid() is asked."
  },
  {
   "property": "C212",
   "status": "proved",
   "theorems": [
    "c212_ends",
    "c212_success",
    "c212_timeout"
   ],
   "note": "All sequences of answers; both directions."
  },
  {
   "property": "C213",
   "status": "proved",
   "theorems": [
    "c213_success",
    "c213_failure",
    "c213_untouched"
   ],
   "note": "For every libyang whose successful ly_ctx_load_module implements the module with the features asked for and keeps the others (loads_well)."
  },
  {
   "property": "C214",
   "status": "proved",
   "theorems": [
    "c214_success",
    "c214_failure"
   ],
   "note": "For every libyang as in C213; the table of modules and features in the statement is written independently. A NULL argument is dereferenced (not claimed)."
  },
  {
   "property": "C215",
   "status": "partial",
   "theorems": [
    "c215_partial",
    "c215_interactive",
    "c215_refuted",
    "c215_refuted_use"
   ],
   "note": "False for the content-id callback: nc_server_destroy frees its datum and keeps the pointer, so a second life of the server uses it and a second nc_server_destroy frees it again. Proved if the application renews it in time; unconditional for the interactive authentication."
  },
  {
   "property": "C216",
   "status": "partial",
   "theorems": [
    "c216_partial",
    "c216_refuted"
   ],
   "note": "False for a datum replaced by setting the callback again, which is forgotten. Proved: a datum not replaced since is freed exactly once by nc_server_destroy."
  },
  {
   "property": "C217",
   "status": "partial",
   "theorems": [
    "c217_partial",
    "c217_refuted",
    "c217_refuted_attr"
   ],
   "note": "False: after the attribute was destroyed, every later failure destroys it again, and a failure leaves what was set up before it. Proved: success exactly if no call failed, everything then set up once; nothing but the attribute is ever set up or destroyed twice."
  },
  {
   "property": "C218",
   "status": "partial",
   "theorems": [
    "c218_partial",
    "c218_refuted",
    "c218_full_refuted"
   ],
   "note": "False for config_lock, ch_client_lock and the lock and condition of the certificate notifications, which nc_server_destroy never destroys. Proved for libcurl, libssh and bind_lock: set up exactly while the server is initialised."
  },
  {
   "property": "C219",
   "status": "proved",
   "theorems": [
    "c219_listen",
    "c219_call_home",
    "c219_root"
   ],
   "note": "The annotated schema trees were compared node by node with an expansion of the YANG modules in /repo/modules (239 nodes, no difference). Whether an object of that name exists and the values are not part of it; map-type and name of a mapping have no handler (C78)."
  },
  {
   "property": "C220",
   "status": "proved",
   "theorems": [
    "c220_keystore",
    "c220_truststore"
   ],
   "note": "As C219."
  },
  {
   "property": "C221",
   "status": "proved",
   "theorems": [
    "c221_listen",
    "c221_call_home",
    "c221_apart",
    "c221_keystore",
    "c221_truststore"
   ],
   "note": "From C219 and C220 and the schema."
  },
  {
   "property": "C222",
   "status": "proved",
   "theorems": [
    "c222_same",
    "c222_unique"
   ],
   "note": "The operation of a generic tree: the tree has exactly one operation and no node without schema. Memory is there (w_dup)."
  },
  {
   "property": "C223",
   "status": "proved",
   "theorems": [
    "c223_sent",
    "c223_partial",
    "c223_full_refuted"
   ],
   "note": "For requests never sent the only exception is a push subscription without ietf-yang-push in the context: NC_MSG_ERROR with a live operation in op (c223_full_refuted, c223_partial). The variables of the caller are NULL before the call."
  },
  {
   "property": "C224",
   "status": "partial",
   "theorems": [
    "c224_oper_partial",
    "c224_oper_full_refuted",
    "c224_schema_partial",
    "c224_schema_leak",
    "c224_schema_full_refuted",
    "c224_ends"
   ],
   "note": "Refuted: get-schema leaks two trees for every reply with another message-id, without limit; get-data frees the envelope twice if such a reply is followed by a call that fails before receiving."
  },
  {
   "property": "C225",
   "status": "proved",
   "theorems": [
    "c225_own",
    "c225_one",
    "c225_works"
   ],
   "note": "What libraries make of the data is an argument of the theorems."
  },
  {
   "property": "C226",
   "status": "proved",
   "theorems": [
    "c226_trusted"
   ],
   "note": "Authorities of the second endpoint only, not of one that one references (C36)."
  },
  {
   "property": "C227",
   "status": "partial",
   "theorems": [
    "c227_partial",
    "c227_full_refuted"
   ],
   "note": "Refuted for a reference of end entity certificates to a bag that does not exist: it counts as 65535 certificates. The connection is then refused only when the certificate of the client is checked."
  },
  {
   "property": "C228",
   "status": "proved",
   "theorems": [
    "c228_memory",
    "c228_defined"
   ],
   "note": "As far as loading and counting go (lines 793-858); the rest is C90-C93."
  },
  {
   "property": "C229",
   "status": "proved",
   "theorems": [
    "c229_printed",
    "c229_memory",
    "c229_whole"
   ],
   "note": "vsnprintf() is modelled by its standard; the va_end() that is missing is not."
  },
  {
   "property": "C230",
   "status": "partial",
   "theorems": [
    "c230_partial",
    "c230_full_refuted"
   ],
   "note": "Refuted for a text of exactly 2^31-1 bytes: its length plus one overflows an int. Proved for all shorter ones."
  },
  {
   "property": "C231",
   "status": "proved",
   "theorems": [
    "c231_all",
    "c231_any"
   ],
   "note": ""
  },
  {
   "property": "C232",
   "status": "proved",
   "theorems": [
    "c232_identities",
    "c232_succeeds",
    "c232_complete"
   ],
   "note": "The tables of identities are transcribed from the YANG modules (GSS-API ones left out), that of libssh from its documentation."
  },
  {
   "property": "C233",
   "status": "partial",
   "theorems": [
    "c233_partial",
    "c233_full_refuted"
   ],
   "note": "Refuted for triple-des-cbc, which is given to libssh under that name and not as 3des-cbc. Proved for all others."
  },
  {
   "property": "C234",
   "status": "proved",
   "theorems": [
    "c234_transport",
    "c234_result"
   ],
   "note": "Memory suffices and the system gives no socket that is open; otherwise see C235."
  },
  {
   "property": "C235",
   "status": "partial",
   "theorems": [
    "c235_partial",
    "c235_full_refuted"
   ],
   "note": "Refuted if memory runs out: the count is raised before the array is grown, and later calls read an array that is gone. Proved if memory suffices."
  },
  {
   "property": "C236",
   "status": "partial",
   "theorems": [
    "c236_partial",
    "c236_all_removed",
    "c236_full_refuted"
   ],
   "note": "Refuted for the host name of an address that is removed by address, port or transport: it is lost. Proved for everything else, and for host names if all addresses are removed at once."
  },
  {
   "property": "C237",
   "status": "proved",
   "theorems": [
    "c237_connections",
    "c237_sockets"
   ],
   "note": "What a client does with a connection it was handed is in C90-C93 and SshConn."
  },
  {
   "property": "C238",
   "status": "proved",
   "theorems": [
    "c238_memory",
    "c238_defined"
   ],
   "note": "For one verification with its data, as in nc_accept_tls_session(); a second with the same data would use freed memory (c238_again)."
  },
  {
   "property": "C239",
   "status": "proved",
   "theorems": [
    "c239_accepted",
    "c239_same",
    "c239_trusted"
   ],
   "note": "The list-level verification is that of C38; c239_trusted carries C38 over, under its condition on the flag of missing certificates."
  },
  {
   "property": "C240",
   "status": "partial",
   "theorems": [
    "c240_partial",
    "c240_full_refuted"
   ],
   "note": "For clients that name one user in all their requests. Refuted otherwise: naming an unknown user leaves only publickey offered to the known one."
  },
  {
   "property": "C241",
   "status": "proved",
   "theorems": [
    "c241_told",
    "c241_total"
   ],
   "note": "The complaint is libyang's error with its message and paths, an input of the model."
  },
  {
   "property": "C242",
   "status": "partial",
   "theorems": [
    "c242_partial",
    "c242_full_refuted"
   ],
   "note": "Holds unless the parser complains about an invalid character sequence after the envelope was parsed; there the error is sent whatever the version. Bad framing is left out, as it is found only with the framing of 1.1; replies of the application too."
  },
  {
   "property": "C243",
   "status": "partial",
   "theorems": [
    "c243_partial",
    "c243_reached",
    "c243_full_refuted",
    "c243_lost"
   ],
   "note": "For endpoints without references among them (see C54) and an order in which, with k configured endpoints, the last k are configured ones followed by those of the application; all of these before or after the configured ones is such an order (in_order_first, in_order_last). Refuted in other orders: an endpoint is lost."
  },
  {
   "property": "C244",
   "status": "partial",
   "theorems": [
    "c244_partial",
    "c244_set",
    "c244_reason",
    "c244_no_reason",
    "c244_full_refuted"
   ],
   "note": "For all sequences of calls of the application. Refuted with nc_ps_poll(), which gives another reason and keeps the killer."
  },
  {
   "property": "C245",
   "status": "proved",
   "theorems": [
    "c245_encrypted",
    "c245_refused"
   ],
   "note": "A line is what fgets() with 128 bytes reads; the word is looked for before the first NUL."
  },
  {
   "property": "C246",
   "status": "proved",
   "theorems": [
    "c246_module",
    "c246_unique",
    "c246_no_submodules"
   ],
   "note": "Without submodules (see C50). The children are those with a value, as libyang gives them."
  },
  {
   "property": "C247",
   "status": "proved",
   "theorems": [
    "c247_announced",
    "c247_only"
   ],
   "note": "The URIs and features are written out in the table of the statement, after RFC 6241."
  },
  {
   "property": "C248",
   "status": "proved",
   "theorems": [
    "c248_module",
    "c248_text",
    "c248_yanglib"
   ],
   "note": "That there is no second entry with the same identifier is c12_base. What follows the revision is in C183 (mod_str_ann)."
  },
  {
   "property": "C249",
   "status": "proved",
   "theorems": [
    "c249_got",
    "c249_disabled",
    "c249_order",
    "c249_enabled"
   ],
   "note": "Values are those of int16_t. That a method of value 0 is tried is not claimed (C87)."
  },
  {
   "property": "C250",
   "status": "partial",
   "theorems": [
    "c250_partial",
    "c250_full_refuted",
    "c250_listens"
   ],
   "note": "For changes that keep the transport. Refuted for changes between SSH and TLS, in both directions and both orders of the nodes: double free, or options taken for those of the other transport."
  },
  {
   "property": "C251",
   "status": "proved",
   "theorems": [
    "c251_never"
   ],
   "note": "The new container has the mandatory local-address."
  },
  {
   "property": "C252",
   "status": "partial",
   "theorems": [
    "c252_norev_partial",
    "c252_first_partial",
    "c252_given",
    "c252_full_refuted"
   ],
   "note": "Proved if no revision of the including module is given, which is what libyang 2 does for submodules, and if the including module is the first of the list. Refuted otherwise: the submodules of the first module of the list are searched."
  },
  {
   "property": "C253",
   "status": "proved",
   "theorems": [
    "c253_tag",
    "c253_type",
    "c253_unknown"
   ],
   "note": "Names are written out in the statement."
  },
  {
   "property": "C254",
   "status": "partial",
   "theorems": [
    "c254_partial",
    "c254_full_refuted",
    "c254_stays"
   ],
   "note": "For histories in which the container listen is not removed and all whole data have the leaf. Refuted otherwise: removing listen, by a difference or by whole data without it, leaves the old timeout in force (c254_stays)."
  },
  {
   "property": "C255",
   "status": "partial",
   "theorems": [
    "c255_partial",
    "c255_adds",
    "c255_full_refuted"
   ],
   "note": "For servers without intervals at the time. Refuted otherwise: the old intervals stay (c255_adds), and the same data given twice make each interval count twice. Memory suffices."
  },
  {
   "property": "C256",
   "status": "proved",
   "theorems": [
    "c256_order"
   ],
   "note": "The last case of the statement, a submodule that is looked for nowhere, is C257. Requests that do not crash (C28)."
  },
  {
   "property": "C257",
   "status": "proved",
   "theorems": [
    "c257_nowhere"
   ],
   "note": "A revision is optional for submodules in ietf-yang-library. The module is asked for without a revision, as libyang does for submodules."
  },
  {
   "property": "C258",
   "status": "partial",
   "theorems": [
    "c121_operations_refused",
    "c258_lost",
    "c258_full_refuted"
   ],
   "note": "True for data refused because of an operation attribute. Refuted for any other failure: the old clients are deleted first and what is left depends only on the data (c258_lost)."
  },
  {
   "property": "C259",
   "status": "proved",
   "theorems": [
    "c259_no_deadlock",
    "c259_completes",
    "c259_bounded"
   ],
   "note": "Threads are finite ways through the texts of the functions; locks taken with a time limit and locks of the application itself are left out; waits on conditions, all limited in time, give the lock away and take it again."
  },
  {
   "property": "C260",
   "status": "proved",
   "theorems": [
    "c260_returned",
    "c260_owned"
   ],
   "note": "Same model as C259."
  },
  {
   "property": "C261",
   "status": "proved",
   "theorems": [
    "c261_refused",
    "c261_readers_first",
    "c259_full_refuted"
   ],
   "note": "c261_refused: with read locks that wait for a waiting writer. c261_readers_first: all but five pairs also with read locks that do not, the default of glibc. Nothing of this is documented."
  },
  {
   "property": "C262",
   "status": "proved",
   "theorems": [
    "c262_clients"
   ],
   "note": "Same model as C259."
  },
  {
   "property": "C263",
   "status": "partial",
   "theorems": [
    "c263_partial",
    "c263_full_refuted"
   ],
   "note": "True if nc_server_ch_client_is_endpt() is never called; refuted otherwise: it does not lock the client."
  },
  {
   "property": "C264",
   "status": "partial",
   "theorems": [
    "c264_partial",
    "c264_full_refuted",
    "c264_intervals_refuted"
   ],
   "note": "True without Call Home threads and nc_server_destroy(); refuted otherwise: a connecting Call Home thread reads them without config_lock. The intervals of certificate notifications are also read without a lock."
  },
  {
   "property": "C265",
   "status": "partial",
   "theorems": [
    "c265_generated_partial",
    "c265_made",
    "c265_full_refuted"
   ],
   "note": "Proved if no public key file is given, and for SSH for RSA keys (C111 has the others). With a public key file of another key both are stored without a word (refuted). Assumes that the libraries write PEM."
  },
  {
   "property": "C266",
   "status": "proved",
   "theorems": [
    "c266_file"
   ],
   "note": "RSA keys for SSH (C111 has the others). SSH2 files are C113; files of OpenSSH are read by libssh. Assumes that the libraries write PEM."
  },
  {
   "property": "C267",
   "status": "proved",
   "theorems": [
    "c267_waits",
    "c267_at_most_three",
    "c267_none"
   ],
   "note": "A wait is limited in time by constants of the library. If a lock fails with an error, nothing is freed (C189)."
  },
  {
   "property": "C268",
   "status": "partial",
   "theorems": [
    "c268_partial",
    "c268_told_alive",
    "c268_full_refuted",
    "c268_clear_refuted"
   ],
   "note": "Proved if each session is added once and is removed and freed by the thread that nc_ps_poll() told that it has terminated; then it is also alive until that thread frees it, so that it can be removed and freed. If another thread removes the session, or calls nc_ps_clear(), while an RPC is handled, the entry is written after it was freed (refuted twice)."
  },
  {
   "property": "C269",
   "status": "proved",
   "theorems": [
    "c269_one_thread"
   ],
   "note": "No rule for the application is assumed. A session counts as handled from nc_ps_poll() finding an RPC of it to the lock for RPCs being given back."
  },
  {
   "property": "C270",
   "status": "proved",
   "theorems": [
    "c270_once",
    "c270_one_thread",
    "c270_quiet"
   ],
   "note": "For applications in which each session is added once and is removed and freed by the thread that was told that it has terminated, which is the way of the documentation."
  },
  {
   "property": "C271",
   "status": "partial",
   "theorems": [
    "c271_partial",
    "c271_full_refuted"
   ],
   "note": "Proved if nc_session_free() gets the lock for RPCs within the time it waits for it; if not, it goes on, and the thread that handles the RPC uses the freed session (refuted)."
  },
  {
   "property": "C272",
   "status": "partial",
   "theorems": [
    "c272_partial",
    "c272_full_refuted",
    "c272_close_lost"
   ],
   "note": "Proved if no session was accepted before the last change of the global function nor before a function of the operation was taken away. Otherwise the defaults stay although a global function is set, against session_server.h 101, or close-session is not supported any more (refuted twice)."
  },
  {
   "property": "C273",
   "status": "proved",
   "theorems": [
    "c273_others",
    "c273_nothing"
   ],
   "note": "Data of an action have exactly one action (RFC 7950 7.15.2), at any depth."
  },
  {
   "property": "C274",
   "status": "partial",
   "theorems": [
    "c274_partial",
    "c274_full_refuted"
   ],
   "note": "Proved for the key exchange and authentication, and for the channel with a thousand times the timeout: session_server_ssh.c 1773 takes the milliseconds for seconds (refuted: with 10000 ms the server is still waiting after 9000 s). Clock readings less than 2^31 ms after the beginning of a phase."
  },
  {
   "property": "C275",
   "status": "proved",
   "theorems": [
    "c275_accepted"
   ],
   "note": "Messages are handled as in C29-C33."
  },
  {
   "property": "C276",
   "status": "partial",
   "theorems": [
    "c276_partial",
    "c276_never",
    "c276_full_refuted"
   ],
   "note": "Proved whenever the peer pauses: the limits are checked when a read gives nothing only. Refuted otherwise: a peer that has a byte ready for each read is never given up, whatever the time (c276_never for every duration). Clock readings in order and less than 24 days apart, the default limits of CMakeLists.txt."
  },
  {
   "property": "C277",
   "status": "proved",
   "theorems": [
    "c277_waiting"
   ],
   "note": "The reading of the message itself is an argument (see C276 and the properties of framing). A descriptor that is not open (POLLNVAL) counts as something to be read."
  },
  {
   "property": "C278",
   "status": "partial",
   "theorems": [
    "c278_partial",
    "c278_full_refuted"
   ],
   "note": "Proved with twice the timeout: nc_session_io_lock() and nc_read_poll() are both given the whole timeout (refuted: a second for the lock and a second for the peer with a timeout of a second)."
  },
  {
   "property": "C279",
   "status": "proved",
   "theorems": [
    "c279_request",
    "c279_exchange"
   ],
   "note": "Composition of C21, C81, C16 and C22. libyang's reading is a premise: the server finds the message-id in the request, the client finds the attributes of the reply."
  },
  {
   "property": "C280",
   "status": "proved",
   "theorems": [
    "c280_requests"
   ],
   "note": "Calls of one thread; for several see C21."
  },
  {
   "property": "C281",
   "status": "partial",
   "theorems": [
    "c281_partial",
    "c281_ip",
    "c281_full_refuted",
    "c281_mail_refuted"
   ],
   "note": "Refuted: names are passed as they are, \"Host.Example.COM\" stays so, and names end at a NUL. Proved for names without NUL in lower case where the module asks for it; IP addresses without condition. How the library reads the certificate is input."
  },
  {
   "property": "C282",
   "status": "partial",
   "theorems": [
    "c282_partial",
    "c282_full_refuted"
   ],
   "note": "Refuted: with mbedTLS a failed asprintf() for an IPv4 address is not noticed and the undefined pointer becomes the user name. Proved when memory suffices or there is no IPv4 address. What the library makes of the certificate (e.g. mbedTLS refuses IP addresses of other lengths) is input."
  },
  {
   "property": "C283",
   "status": "partial",
   "theorems": [
    "c283_partial",
    "c283_mixed_refuted",
    "c283_full_refuted"
   ],
   "note": "Refuted: after a failed write() or ssh_channel_write() the session stays usable and the message counts as sent; its beginning becomes part of the next message. Proved for transports that take data in any portions and may end or block at any byte, but report no other error. Messages as in C81."
  },
  {
   "property": "C284",
   "status": "proved",
   "theorems": [
    "c284_server",
    "c284_client"
   ],
   "note": "Composition of C110, C81 and C280. Premise: libyang reads back the elements of a hello as they are written; capabilities are C strings that are not blank; messages as in C81, memory for them."
  },
  {
   "property": "C285",
   "status": "partial",
   "theorems": [
    "c285_partial",
    "c285_rng",
    "c285_key",
    "c285_rsa",
    "c285_ec",
    "c285_success",
    "c285_rng_round",
    "c285_full_refuted",
    "c285_others_refuted"
   ],
   "note": "False in full: an object is released uninitialised when a later allocation fails (exactly when, in c285_rng, c285_key, c285_rsa, c285_ec). Proved of all calls that are defined."
  },
  {
   "property": "C286",
   "status": "partial",
   "theorems": [
    "c286_partial",
    "c286_safe",
    "c286_full_refuted"
   ],
   "note": "False in full: an error without a reason string (a system error in OpenSSL 3) is passed to strlen() as NULL. Proved when every error has a reason; without memory NULL is returned."
  },
  {
   "property": "C287",
   "status": "partial",
   "theorems": [
    "c287_partial",
    "c287_exact",
    "c287_accepts",
    "c287_full_refuted",
    "c287_scope_refuted"
   ],
   "note": "False in full: every client on a UNIX socket has the path of the server's own socket as host; the interface of a link-local address is lost. Proved for clients on IP without scope. Premise: inet_ntop() renders different addresses differently (quad_inj: the dotted form does)."
  },
  {
   "property": "C288",
   "status": "proved",
   "theorems": [
    "c288_all_or_nothing",
    "c288_other"
   ],
   "note": "The system calls and allocations are oracles."
  },
  {
   "property": "C289",
   "status": "proved",
   "theorems": [
    "c289_called",
    "c289_got",
    "c289_total",
    "c289_mode"
   ],
   "note": "One thread context; contexts of threads are in C150 and C151."
  },
  {
   "property": "C290",
   "status": "proved",
   "theorems": [
    "c290_tidy"
   ],
   "note": "Allocations of 2^63 bytes or more fail (premise; the limit of the C library)."
  },
  {
   "property": "C291",
   "status": "proved",
   "theorems": [
    "c291_exact"
   ],
   "note": "The library asks for more space exactly if the buffer is smaller than needed (premise, with an instance in c291_key)."
  },
  {
   "property": "C292",
   "status": "partial",
   "theorems": [
    "c292_released_partial",
    "c292_memory",
    "c292_refuted",
    "c292_null_refuted"
   ],
   "note": "Holds without failing allocations (c292_memory) and whenever no name and no feature is missing (c292_released_partial). After a name or feature that could not be copied the rest is never released (c292_refuted); an array that could not be enlarged is written to through NULL (c292_null_refuted)."
  },
  {
   "property": "C293",
   "status": "proved",
   "theorems": [
    "c293_succeeds",
    "c293_keys",
    "c293_whole",
    "c293_left"
   ],
   "note": "What a failed fclose(), strdup() or unlink() leaves is in C115."
  },
  {
   "property": "C294",
   "status": "partial",
   "theorems": [
    "c294_array_partial",
    "c294_overflow",
    "c294_refuted",
    "c294_glibc",
    "c294_never_removed",
    "c294_int_bytes",
    "c294_null_refuted"
   ],
   "note": "Holds if each block has four bytes for each number (c294_array_partial), but only one byte for each is asked for: the first suite already overflows its block (c294_overflow); with glibc five suites fit and any more overflow the heap (c294_glibc). Suites are never removed again (c294_never_removed)."
  },
  {
   "property": "C295",
   "status": "partial",
   "theorems": [
    "c295_names_partial",
    "c295_refuted",
    "c295_refused"
   ],
   "note": "Holds for the suites before TLS 1.3; the prefix of those of TLS 1.3 is overwritten, so that none of them can be configured (c295_refused)."
  },
  {
   "property": "C296",
   "status": "partial",
   "theorems": [
    "c296_partial",
    "c296_ssh",
    "c296_refuted",
    "c296_refused",
    "c296_kept",
    "c296_deleted",
    "c296_format_refuted"
   ],
   "note": "Always holds for SSH (c296_ssh); for TLS if each text can be decoded and the library decides: -1 of nc_is_pk_subject_public_key_info() is taken for a key of the right kind (c296_refuted). The leaf public-key-format is kept without comparing it with the key (c296_format_refuted)."
  },
  {
   "property": "C297",
   "status": "partial",
   "theorems": [
    "c297_partial",
    "c297_added",
    "c297_deleted",
    "c297_endpts",
    "c297_binds",
    "c297_name",
    "c297_opts",
    "c297_addr",
    "c297_refuted"
   ],
   "note": "Holds if memory suffices (c297_partial, with c297_added and c297_deleted). Each allocation that fails leaves something behind: a freed array (c297_endpts, c297_binds), an endpoint without name (c297_name) or options (c297_opts), after which further calls crash; only the last leaves an endpoint that can be deleted (c297_addr)."
  },
  {
   "property": "C298",
   "status": "partial",
   "theorems": [
    "c298_partial",
    "c298_never",
    "c298_old_first",
    "c298_new_first",
    "c298_refuted"
   ],
   "note": "Holds as long as the transport stays (c298_partial). The change itself always is undefined behaviour: the old container first leaves the address freed but not NULL, and the new one frees it again (c298_old_first); the new one first, the old one is deleted from the options of the other transport (c298_new_first, c298_never)."
  },
  {
   "property": "C299",
   "status": "partial",
   "theorems": [
    "c299_partial",
    "c299_given",
    "c299_same",
    "c299_refuted"
   ],
   "note": "Holds if there are enough quotation marks (c299_partial). With fewer, the text between the last two is given, whichever it is (c299_given, c299_refuted). The model of the replies of C241 has the same texts (c299_same)."
  },
  {
   "property": "C300",
   "status": "partial",
   "theorems": [
    "c300_partial",
    "c300_attr",
    "c300_unsafe",
    "c300_refuted"
   ],
   "note": "Holds for paths with a slash (c300_partial) and attributes with a prefix (c300_attr); exactly the others are read through NULL (c300_unsafe)."
  },
  {
   "property": "C301",
   "status": "partial",
   "theorems": [
    "c301_partial",
    "c301_once",
    "c301_reported",
    "c301_nobody",
    "c301_alone",
    "c301_free",
    "c301_dead",
    "c301_failed",
    "c301_refuted"
   ],
   "note": "There was a subscription at some time during the call (c301_partial), but maybe not any more when the notification is written (c301_refuted). The other parts hold as stated (c301_once, c301_reported, c301_nobody, c301_alone, c301_free, c301_dead, c301_failed)."
  },
  {
   "property": "C302",
   "status": "partial",
   "theorems": [
    "c302_partial",
    "c302_memory",
    "c302_lost",
    "c302_twice",
    "c302_twice_later",
    "c302_refuted"
   ],
   "note": "Holds with memory and without empty pieces, where the result is that of the model of TlsConn (c302_partial); with memory nothing unwritten is read (c302_memory). The size is kept when the block is lost (c302_lost), and two empty pieces free a block twice with the realloc() of glibc (c302_twice, c302_twice_later)."
  },
  {
   "property": "C303",
   "status": "partial",
   "theorems": [
    "c303_partial",
    "c303_nodes",
    "c303_order",
    "c303_errors",
    "c303_null",
    "c303_refuted"
   ],
   "note": "The printed tree is right for all replies (c303_nodes, c303_order). The reply is kept unless it has several errors or an unknown type (c303_partial); all errors but the first are freed (c303_errors). NULL is read exactly for OK without an envelope (c303_null). That lyd_insert_child() appends, or inserts anywhere, are premises."
  },
  {
   "property": "C304",
   "status": "partial",
   "theorems": [
    "c304_partial",
    "c304_found",
    "c304_refuted"
   ],
   "note": "Holds where no block of 2^62 bytes can be allocated (c304_partial, c304_found); without this bound the size would become zero and the buffer be freed twice (c304_refuted). The hash is that of the model without buffers."
  },
  {
   "property": "C305",
   "status": "partial",
   "theorems": [
    "c305_partial",
    "c305_defaults",
    "c305_never",
    "c305_refuted"
   ],
   "note": "Holds if TLS 1.2 or 1.3 is configured (c305_partial). With only 1.0 or 1.1 the call succeeds with a warning and the defaults are used, of which none was configured (c305_defaults, c305_never)."
  },
  {
   "property": "C306",
   "status": "partial",
   "theorems": [
    "c306_trust",
    "c306_known",
    "c306_checks",
    "c306_succeeds",
    "c306_partial",
    "c306_known_fetched",
    "c306_unchecked",
    "c306_refuted"
   ],
   "note": "The first sentence holds in full. The second holds if the store of CRLs could be allocated (c306_partial); otherwise the connection is set up without any check (c306_unchecked, c306_refuted)."
  },
  {
   "property": "C307",
   "status": "partial",
   "theorems": [
    "c307_inside",
    "c307_string",
    "c307_partial",
    "c307_when",
    "c307_too_long",
    "c307_refuted"
   ],
   "note": "The lines and the buffer in full (c307_inside, c307_string). Logging is defined if the lines have less than 256 bytes (c307_partial); otherwise the string is NULL and is given for %s (c307_too_long, c307_refuted)."
  },
  {
   "property": "C308",
   "status": "partial",
   "theorems": [
    "c308_tls12",
    "c308_partial",
    "c308_defaults",
    "c308_none",
    "c308_refuted"
   ],
   "note": "Up to TLS 1.2 in full (c308_tls12). With TLS 1.3 if a suite of TLS 1.3 is configured and, for versions of OpenSSL that refuse unknown names, no other (c308_partial); otherwise the default suites of TLS 1.3 stay (c308_defaults, c308_refuted)."
  },
  {
   "property": "C309",
   "status": "partial",
   "theorems": [
    "c309_trusts",
    "c309_fails",
    "c309_partial",
    "c309_skipped",
    "c309_refuted"
   ],
   "note": "Exactly the readable certificates are trusted (c309_trusts), and when loading fails is known (c309_fails). Certificates that cannot be read are skipped without a message (c309_skipped, c309_refuted); of a file at least one was read (c309_partial)."
  }
 ]
}