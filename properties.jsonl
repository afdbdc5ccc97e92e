{"id": "C01", "title": "Chunked framing (NETCONF 1.1) round trip", "statement": "A message written by one peer on a 1.1 session is received by the other peer byte for byte, whatever way the sender cut the message into writes and however the transport fragments the byte stream; the bytes that follow the message stay in the stream for the next message.", "quantifier": "every non-empty message, every split into write calls, every fragmentation of the stream, every trailing data", "why_tests_cant": "the set of messages, splits and fragmentations is infinite; tests use a few fixed ones", "anchors": ["src/io.c: nc_write_clb, nc_write_clb_flush, nc_write_starttag_and_msg, nc_write_endtag, nc_read_msg_io, nc_read_until, nc_read_chunk"]}
{"id": "C02", "title": "End-of-message framing (NETCONF 1.0) round trip", "statement": "A message that does not contain the end-of-message marker is received byte for byte on a 1.0 session, whatever the fragmentation, and the rest of the stream stays for the next message.", "quantifier": "every message, every fragmentation, every trailing data", "why_tests_cant": "the marker overlaps itself; the failing payloads depend on the exact tail of the message and on how the partial-match automaton restarts", "anchors": ["src/io.c: nc_read_until, nc_read_msg_io, nc_write_endtag"]}
{"id": "C03", "title": "Consecutive messages never bleed into each other", "statement": "Any list of messages sent one after another on a 1.1 session is received as exactly the same list, in the same order.", "quantifier": "every finite list of messages, every split of each, every fragmentation", "why_tests_cant": "needs induction over the history of the stream", "anchors": ["src/io.c: nc_read_msg_io, nc_write_msg_io"]}
{"id": "C04", "title": "Receiving arbitrary bytes is memory safe", "statement": "Whatever bytes a peer sends, receiving a message never reads or writes outside the buffers allocated for it and never reads uninitialised memory.", "quantifier": "every byte stream and fragmentation", "why_tests_cant": "the failing chunk sizes (near 2^32 and 2^64) are not in any test and need machine-word reasoning", "anchors": ["src/io.c: nc_read_chunk, nc_read_until, nc_read_msg_io"]}
{"id": "C05", "title": "The chunked reader accepts exactly RFC 6242 framing", "statement": "Every byte stream that is a well-formed RFC 6242 chunked message is decoded to the concatenation of its chunks, and a stream that is not well formed is reported as malformed and never delivered as a message.", "quantifier": "every byte stream", "why_tests_cant": "acceptance of a language is a statement about all strings", "anchors": ["src/io.c: nc_read_msg_io, nc_read_until"]}
{"id": "C06", "title": "Output buffering keeps content, order and bounds", "statement": "For any sequence of writes, the bytes put on the wire carry exactly the written bytes in the written order, every chunk header announces exactly the number of bytes in its chunk, no chunk is empty, and the 1024 byte buffer is never overrun.", "quantifier": "every sequence of writes of every length", "why_tests_cant": "buffer fill level depends on the whole history of writes", "anchors": ["src/io.c: nc_write_clb, nc_write_clb_flush, nc_write_starttag_and_msg"]}
{"id": "C07", "title": "XML escaping is faithful", "statement": "Text written as XML content contains no raw markup characters on the wire and un-escapes to exactly the text supplied.", "quantifier": "every byte string, at every buffer fill level", "why_tests_cant": "the escape routine flushes in the middle of its loop; the interesting cases are at buffer boundaries for every fill level", "anchors": ["src/io.c: nc_write_xmlclb, nc_write_clb"]}
{"id": "C08", "title": "Protocol version agreement", "statement": "After the capability exchange both peers use the same protocol version: 1.1 when both advertised base:1.1, 1.0 when both advertised base:1.0 but not both base:1.1, otherwise the session is not established.", "quantifier": "every pair of capability lists in every order", "why_tests_cant": "capability lists are unbounded and order matters", "anchors": ["src/session.c: parse_cpblts, nc_client_recv_hello_io, nc_server_recv_hello_io"]}
{"id": "C09", "title": "Session id rules of the hello exchange", "statement": "A client establishes a session only when the server hello carries a session-id, and then uses that id; a server establishes a session only when the client hello carries none; every other hello leaves the session unestablished.", "quantifier": "every hello content", "why_tests_cant": "ranges over all hello documents and the order of their children", "anchors": ["src/session.c: nc_client_recv_hello_io, nc_server_recv_hello_io, nc_handshake_io"]}
{"id": "C10", "title": "A session is handed out only when running", "statement": "Every accept or connect call returns a session to the application only after a successful handshake, with running status; on any failure no session is handed out.", "quantifier": "every outcome of the transport and of the hello exchange", "why_tests_cant": "failure paths at each step are hard to provoke in tests", "anchors": ["src/session_server.c: nc_accept_inout, nc_accept; src/session.c: nc_handshake_io"]}
{"id": "C11", "title": "Server session ids are never reused while unambiguous", "statement": "Any two sessions accepted by one server have different ids, as long as fewer than 2^32 sessions have been accepted; no id is zero.", "quantifier": "every history of accept calls on any transport, any interleaving", "why_tests_cant": "uniqueness over all histories; wrap-around takes 2^32 accepts", "anchors": ["src/session_server.c: nc_accept_inout, nc_accept, server_opts.new_session_id"]}
{"id": "C12", "title": "Capability list contents", "statement": "The capability list a server advertises contains base:1.0 and base:1.1 and every user capability, and contains with-defaults exactly when a basic mode is configured, listing exactly the configured additional modes.", "quantifier": "every server configuration and module set", "why_tests_cant": "combinatorial over settings and modules", "anchors": ["src/session.c: nc_server_get_cpblts_version, add_cpblt; src/session_server.c: nc_server_set_capab_withdefaults, nc_server_set_capability"]}
{"id": "C13", "title": "Poll session lock queue is mutual exclusion in FIFO order", "statement": "At any time at most one thread holds a poll session structure, waiting threads obtain it in the order in which they queued unless they time out, and a thread that timed out never blocks the others.", "quantifier": "every interleaving of any number of threads locking, timing out and unlocking", "why_tests_cant": "schedules are unbounded", "anchors": ["src/session_server.c: nc_ps_queue_add_id, nc_ps_queue_remove_id, nc_ps_lock, nc_ps_unlock"]}
{"id": "C14", "title": "Poll session structure behaves as a collection of sessions", "statement": "After any sequence of additions and removals, the structure holds exactly the sessions added and not yet removed, each once, and count/get/find agree with that.", "quantifier": "every sequence of add, delete and clear calls, every session", "why_tests_cant": "removal reorders the array; correctness depends on the full history", "anchors": ["src/session_server.c: nc_ps_add_session, _nc_ps_del_session, nc_ps_del_session, nc_ps_get_session, nc_ps_find_session, nc_ps_session_count, nc_ps_clear"]}
{"id": "C15", "title": "Polling is fair", "statement": "One polling round examines every session of the structure at most once, examines all of them unless it stops on an event, and resumes after the session that had the last event, so that a session with pending data is served within as many calls as there are sessions, however busy the others are.", "quantifier": "every number of sessions and every pattern of readiness over time", "why_tests_cant": "starvation is a property of infinite runs", "anchors": ["src/session_server.c: nc_ps_poll, nc_ps_poll_sess"]}
{"id": "C16", "title": "Every received RPC gets exactly one reply carrying its message-id", "statement": "For every received well-formed RPC the server sends exactly one rpc-reply with the message-id attribute of the request, whatever the callback returns; requests without message-id get an error reply.", "quantifier": "every request and every callback result", "why_tests_cant": "ranges over all requests and all callback behaviours", "anchors": ["src/session_server.c: nc_server_recv_rpc_io, nc_server_send_reply_io, nc_server_poll, nc_ps_poll"]}
{"id": "C17", "title": "Idle timeout", "statement": "A session without notification subscription is terminated for inactivity only when no RPC arrived for at least the configured idle timeout, and is terminated by the next poll after that; with idle timeout 0 it is never terminated for inactivity.", "quantifier": "every clock history, poll timeout and RPC arrival pattern", "why_tests_cant": "depends on wall-clock time and poll timeout arguments", "anchors": ["src/session_server.c: nc_ps_poll_sess, nc_ps_poll"]}
{"id": "C18", "title": "Termination reason is the true one", "statement": "A terminated session reports closed only if the client sent close-session, killed only if another session killed it, dropped only if the transport failed, timeout only on inactivity; and poll reports an erroneous termination exactly for the reasons other than closed and killed.", "quantifier": "every termination history", "why_tests_cant": "the reporting code combines reasons bitwise; each combination must be examined", "anchors": ["src/session_server.c: nc_ps_poll, nc_ps_poll_sess, nc_clb_default_close_session, nc_session_set_term_reason; src/netconf.h: NC_SESSION_TERM_REASON"]}
{"id": "C19", "title": "RPC lock is mutual exclusion", "statement": "At any time at most one thread processes an RPC of a session; a thread that waits for the lock and times out leaves the lock state unchanged; unlock by a thread not holding it is refused.", "quantifier": "every interleaving of lock, timed lock and unlock by any number of threads", "why_tests_cant": "schedules are unbounded", "anchors": ["src/session.c: nc_session_rpc_lock, nc_session_rpc_unlock"]}
{"id": "C20", "title": "Malformed RPC handling keeps the session in a defined state", "statement": "A message that is not a valid RPC makes the server either answer with a malformed-message error and go on, or terminate the session as defined for the protocol version; it never processes an absent RPC.", "quantifier": "every outcome of reading and parsing a message", "why_tests_cant": "error paths of parsing interact with framing errors", "anchors": ["src/session_server.c: nc_server_recv_rpc_io, nc_ps_poll"]}
{"id": "C21", "title": "Client message ids are unique and increasing", "statement": "Successive RPCs sent on a session carry strictly increasing message ids, the id reported to the caller is the one put on the wire, and a failed send consumes no id.", "quantifier": "every sequence of sends with arbitrary failures", "why_tests_cant": "histories are unbounded", "anchors": ["src/session_client.c: nc_send_rpc, nc_send_msg_io"]}
{"id": "C22", "title": "A reply is accepted only for its request", "statement": "Receiving the reply of a request yields the reply only if the reply carries the same message-id; a missing or different id is reported as such and never delivered as the reply.", "quantifier": "every reply document and every requested id", "why_tests_cant": "ranges over all attribute values", "anchors": ["src/session_client.c: recv_reply_check_msgid, recv_reply, nc_recv_reply"]}
{"id": "C23", "title": "No message is lost, duplicated or reordered between receivers", "statement": "For any interleaving of receiving replies and receiving notifications on a client session, the replies delivered are a prefix of the replies in wire order, and the notifications delivered are a prefix of the notifications in wire order, and everything that arrived is either delivered or still buffered.", "quantifier": "every sequence of arrivals and of receive calls", "why_tests_cant": "interleavings are unbounded", "anchors": ["src/session_client.c: recv_msg, recv_reply, recv_notif"]}
{"id": "C24", "title": "Message classification", "statement": "A received message is treated as a reply exactly when its root element is rpc-reply, as a notification exactly when its root element is notification, whatever whitespace, comments and XML declaration precede it.", "quantifier": "every message text", "why_tests_cant": "statement about all strings", "anchors": ["src/session_client.c: get_msg_type"]}
{"id": "C25", "title": "A hostile server cannot crash the client receive path", "statement": "Whatever the result of reading a message, receiving on a client session returns a defined result.", "quantifier": "every read result including malformed framing", "why_tests_cant": "the malformed-framing result is not produced by any test server", "anchors": ["src/session_client.c: recv_msg; src/io.c: nc_read_msg_io"]}
{"id": "C26", "title": "Capability lookup", "statement": "Asking whether a session has a capability answers with a capability of the peer that equals the one asked for, ignoring parameters, and answers no when there is none.", "quantifier": "every capability list and every query", "why_tests_cant": "prefix matching is exact on typical data only", "anchors": ["src/session_client.c: nc_session_cpblt"]}
{"id": "C27", "title": "Removing Call Home listening addresses", "statement": "After removing Call Home binds by address and port, no bind matching the given address and port is left and every other bind is kept.", "quantifier": "every list of binds and every pattern", "why_tests_cant": "adjacent matches and order matter", "anchors": ["src/session_client.c: nc_client_ch_del_bind, nc_client_ch_add_bind_listen"]}
{"id": "C28", "title": "Newest module revision is chosen", "statement": "When a module is requested without a revision, the newest revision announced by the server is the one retrieved.", "quantifier": "every list of module revisions in any order", "why_tests_cant": "needs every order of announcements", "anchors": ["src/session_client.c: retrieve_module_data_imp"]}
{"id": "C29", "title": "SSH authentication establishes one fixed identity", "statement": "When an SSH client becomes authenticated, the session user name is a configured user, all successful authentication steps were for that user name, and the name never changes afterwards; an unconfigured user is never authenticated.", "quantifier": "every sequence of authentication messages", "why_tests_cant": "attack sequences are unbounded", "anchors": ["src/session_server_ssh.c: nc_server_ssh_auth, nc_session_ssh_msg"]}
{"id": "C30", "title": "SSH user must pass all configured methods", "statement": "A client is authenticated only after it succeeded in every authentication method configured for the user.", "quantifier": "every sequence of authentication messages and every set of configured methods", "why_tests_cant": "attack sequences are unbounded", "anchors": ["src/session_server_ssh.c: nc_server_ssh_auth"]}
{"id": "C31", "title": "No NETCONF channel before SSH authentication", "statement": "No channel is opened and no netconf subsystem is granted on an SSH connection before the client is authenticated.", "quantifier": "every sequence of SSH messages", "why_tests_cant": "attack sequences are unbounded", "anchors": ["src/session_server_ssh.c: nc_session_ssh_msg, nc_server_ssh_channel_open, nc_server_ssh_channel_subsystem"]}
{"id": "C32", "title": "Password comparison", "statement": "A password is accepted exactly when it matches the stored value: equal text for cleartext-marked values, equal hash for hashed values, empty only for an empty stored value.", "quantifier": "every stored value and every received password", "why_tests_cant": "ranges over all strings", "anchors": ["src/session_server_ssh.c: nc_server_ssh_compare_password"]}
{"id": "C33", "title": "Public key acceptance", "statement": "A public key is accepted exactly when it equals one of the keys configured for the user, and access is granted only with a signature.", "quantifier": "every list of configured keys, including unparsable ones, and every presented key", "why_tests_cant": "lists and positions of bad keys are unbounded", "anchors": ["src/session_server_ssh.c: nc_server_ssh_auth_pubkey_compare_key, nc_server_ssh_auth_pubkey"]}
{"id": "C34", "title": "Authorized-keys path expansion", "statement": "The path of a user's key file is the configured format with each %h, %u, %U, %% replaced by home, user name, uid and percent sign, everything else unchanged; a format with any other token is rejected.", "quantifier": "every format string and every user", "why_tests_cant": "statement about all strings; buffer growth by 16 bytes must never overrun", "anchors": ["src/session_server_ssh.c: nc_server_ssh_get_system_keys_path, nc_server_ssh_str_append"]}
{"id": "C35", "title": "SSH sessions sharing a connection form one ring", "statement": "The NETCONF sessions multiplexed over one SSH connection always form a single ring containing exactly the sessions created on that connection and not yet freed; the connection is released exactly when the last one is freed.", "quantifier": "every sequence of channel openings and session frees", "why_tests_cant": "histories are unbounded", "anchors": ["src/session_server_ssh.c: nc_server_ssh_channel_subsystem; src/session.c: nc_session_free_transport"]}
{"id": "C36", "title": "Certificate-to-name mapping", "statement": "The user name of a TLS client is produced by the first mapping entry, in the configured order, whose fingerprint matches a certificate of the client's chain and whose map type yields a name for it; without such entry the client is refused.", "quantifier": "every entry list, chain and referenced endpoint", "why_tests_cant": "combinatorial over entries and chains", "anchors": ["src/session_server_tls.c: nc_server_tls_cert_to_name, _nc_server_tls_cert_to_name, nc_server_tls_get_username"]}
{"id": "C37", "title": "Common-name mapping yields the common name", "statement": "With the common-name map type the user name is the value of the CN attribute of the certificate subject.", "quantifier": "every subject name", "why_tests_cant": "attribute values chosen by the certificate requester are arbitrary strings", "anchors": ["src/session_server_tls.c: nc_server_tls_get_username"]}
{"id": "C38", "title": "TLS client must be trusted", "statement": "A TLS client is accepted only if its certificate chains to a configured certificate authority with no verification error, or equals a configured end-entity certificate.", "quantifier": "every sequence of certificate verification callbacks", "why_tests_cant": "verification error combinations are unbounded", "anchors": ["src/session_openssl.c: nc_server_tls_verify_cb; src/session_server_tls.c: nc_server_tls_verify_cert"]}
{"id": "C39", "title": "Fingerprint text is faithful", "statement": "The textual fingerprint of a digest fits its buffer exactly and distinct digests have distinct fingerprints, so comparing fingerprints text equals comparing digests.", "quantifier": "every digest of every length", "why_tests_cant": "statement about all byte strings", "anchors": ["src/session_server_tls.c: nc_server_tls_digest_to_hex, nc_server_tls_cert_to_name"]}
{"id": "C40", "title": "Call Home endpoint rotation", "statement": "A Call Home client tries each endpoint the configured number of times before moving to the next, visits the endpoints cyclically in configured order, and after a loss of connection starts again according to the configured start policy.", "quantifier": "every number of endpoints and pattern of failures and reconfigurations", "why_tests_cant": "histories are unbounded", "anchors": ["src/session_server.c: nc_ch_client_thread"]}
{"id": "C41", "title": "Periodic Call Home is aligned to the anchor", "statement": "With an anchor time configured, the next periodic connection is made at the next moment that is a whole number of periods from the anchor.", "quantifier": "every time, anchor and period", "why_tests_cant": "clock dependent", "anchors": ["src/session_server.c: nc_ch_client_thread"]}
{"id": "C42", "title": "Certificate expiration notification schedule", "statement": "Each notification time computed for a certificate is in the future, lies on the schedule given by the configured anchors and periods, and repeated computation reaches the expiration, so that every scheduled notification is sent; the thread always wakes up at the earliest scheduled time.", "quantifier": "every expiration time, interval table and current time", "why_tests_cant": "calendar arithmetic over all times", "anchors": ["src/session_server.c: nc_server_notif_cert_exp_next_notif_time_get, nc_server_notif_cert_exp_first_notif_time_get, nc_server_notif_cert_exp_wakeup_time_get"]}
{"id": "C43", "title": "Endpoint and listening socket tables stay in step", "statement": "After any sequence of endpoint additions and removals, the listening socket at a position belongs to the endpoint at the same position, endpoint names are unique, and an endpoint whose addition failed is absent.", "quantifier": "every sequence of additions with failures and removals", "why_tests_cant": "histories are unbounded", "anchors": ["src/session_server.c: nc_server_add_endpt_unix_socket_listen, _nc_server_del_endpt_unix_socket, nc_server_set_address_port, nc_accept"]}
{"id": "C44", "title": "Deadline arithmetic", "statement": "The remaining time computed from a deadline is the true remaining time, and a blocking call with a timeout returns within it.", "quantifier": "every pair of time stamps and every signal interruption pattern", "why_tests_cant": "clock and signals are not controllable in tests", "anchors": ["src/session.c: nc_timeouttime_get, nc_timeouttime_cur_diff, nc_poll"]}
{"id": "C45", "title": "Error replies follow RFC 6241", "statement": "Every error built by the error constructor carries an error-type that RFC 6241 appendix A permits for its error-tag, and reading tag and type back gives what was put in.", "quantifier": "every tag and every type argument", "why_tests_cant": "all tag/type combinations, including invalid ones", "anchors": ["src/messages_server.c: nc_err, nc_err_get_tag, nc_err_get_type, nc_err_tag2str, nc_err_str2tag"]}
{"id": "C46", "title": "Notification subscription counter", "statement": "The subscription status of a session is on exactly when more increments than effective decrements happened, and a decrement at zero leaves it at zero.", "quantifier": "every sequence of increments and decrements", "why_tests_cant": "histories are unbounded", "anchors": ["src/session_server.c: nc_session_inc_notif_status, nc_session_dec_notif_status, nc_session_get_notif_status"]}
{"id": "C47", "title": "Module information from capabilities", "statement": "The module list derived from a peer's capabilities contains exactly the modules announced, each with the announced revision and features.", "quantifier": "every capability list", "why_tests_cant": "statement about all strings", "anchors": ["src/session_client.c: build_module_info_cpblts"]}
{"id": "C48", "title": "Authorized keys file parsing", "statement": "The keys accepted from an authorized_keys file are exactly those on its non-empty, non-comment lines in order, whatever other lines surround them.", "quantifier": "every file content", "why_tests_cant": "statement about all files", "anchors": ["src/session_server_ssh.c: nc_server_ssh_read_authorized_keys_file"]}
{"id": "C49", "title": "No hello message crashes the receiver", "statement": "Receiving any hello message, of whatever elements, never leads to an invalid memory access or an abort of the process, on either side.", "quantifier": "every parsed message, both sides", "why_tests_cant": "the bad messages are unusual trees nobody writes a test for", "anchors": ["src/session.c: nc_client_recv_hello_io", "src/session.c: nc_server_recv_hello_io", "src/session_client.c: nc_ctx_check_and_fill"]}
{"id": "C50", "title": "The module list of a client is well formed", "statement": "The list of server modules the client builds from yang-library data holds one entry per module of the data, ends after the last one, and using it reads only memory that was written.", "quantifier": "every yang-library content, every set of capabilities", "why_tests_cant": "depends on memory content after a reallocation; a test usually sees zeros", "anchors": ["src/session_client.c: build_module_info_yl", "src/session_client.c: nc_ctx_fill"]}
{"id": "C51", "title": "Names come from the client's certificate", "statement": "A TLS user name that a mapping entry takes from a certificate (common name, subject alternative name) is taken from the certificate of the client, not from another certificate of its chain.", "quantifier": "every chain, entry list and TLS library", "why_tests_cant": "needs chains in which several certificates have names, for every order of verification callbacks", "anchors": ["src/session_server_tls.c: nc_server_tls_cert_to_name", "src/session_mbedtls.c: nc_server_tls_append_cert_to_chain"]}
{"id": "C52", "title": "Call Home idle timeout", "statement": "A Call Home session is terminated for idleness exactly if its connection is periodic with a non-zero idle timeout, it has no subscription and its last RPC is at least the timeout ago; the thread stops watching a session only when the session ended, the client was removed or waiting failed.", "quantifier": "every sequence of wake-ups, reconfigurations and times", "why_tests_cant": "timing and concurrency dependent", "anchors": ["src/session_server.c: nc_server_ch_client_thread_session_cond_wait"]}
{"id": "C53", "title": "Stopping the certificate expiration notifications", "statement": "After nc_server_notif_cert_expiration_thread_stop() the notification thread ends without waiting for the next notification; after a change of the configuration it uses the new certificates and intervals, and never intervals that were freed; there is at most one such thread, and a start that failed can be repeated.", "quantifier": "every interleaving of the notification thread with starts, stops and configuration changes", "why_tests_cant": "the windows are a few instructions wide", "anchors": ["src/session_server.c: nc_server_notif_cert_exp_thread, nc_server_notif_cert_expiration_thread_start, nc_server_notif_cert_expiration_thread_stop", "src/server_config.c: nc_server_config_ln2_netconf_server, nc_server_config_setup_diff"]}
{"id": "C54", "title": "Removing all endpoints at once", "statement": "Removing the listen container (which every nc_server_config_setup_data() does first) removes every SSH and TLS endpoint, keeps the UNIX socket endpoints of the application, and frees every block and closes every socket exactly once.", "quantifier": "every set of endpoints and references between them, in every order", "why_tests_cant": "depends on the order of the endpoints and on references between them; tests use one or two endpoints", "anchors": ["src/server_config.c: nc_server_config_listen, nc_server_config_del_endpt_ssh, nc_server_config_del_endpt_tls, nc_server_config_del_endpt_references, nc_server_config_setup_data"]}
{"id": "C55", "title": "Endpoint references", "statement": "Applying a configuration always comes to an end. If it succeeds, every endpoint reference leads to another existing endpoint with the same transport (SSH or TLS), following references from any endpoint ends, and what authentication follows is the name of a present endpoint.", "quantifier": "every set of endpoints and references, every sequence of configuration changes", "why_tests_cant": "all shapes of reference graphs in all orders cannot be enumerated", "anchors": ["src/server_config.c: nc_server_config_check_endpt_references, nc_server_config_check_endpt_reference_cycle, nc_server_config_endpoint_reference", "src/session_server.c: nc_server_get_referenced_endpt"]}
{"id": "C56", "title": "No listening endpoint is starved", "statement": "With n listening endpoints, a connection waiting at one of them is accepted within 2n-1 calls of nc_accept() however many connections arrive at the others; connections at one endpoint are accepted in order; nc_accept() times out only if no connection waits and never waits longer than its timeout.", "quantifier": "every sequence of arrivals, calls and reconfigurations", "why_tests_cant": "depends on the order of arrivals and on the remembered events", "anchors": ["src/session_server.c: nc_sock_accept_binds, nc_accept, nc_server_set_address_port"]}
{"id": "C57", "title": "What is set in an error is what it carries", "statement": "After any sequence of nc_err_set_app_tag(), nc_err_set_path(), nc_err_set_msg(), nc_err_set_sid(), nc_err_add_bad_attr/elem/ns() and nc_err_add_info_other() on an error made by nc_err(), the getters return what was set last (the message of the tag if none was set), the type, tag and severity are as built, no element occurs twice, and error-info holds everything that was added, in order, with one session-id, the last one set.", "quantifier": "every error and every sequence of calls", "why_tests_cant": "the sequences are unboundedly many; tests set each part once", "anchors": ["src/messages_server.c: nc_err_set_app_tag, nc_err_set_path, nc_err_set_msg, nc_err_set_sid, nc_err_add_bad_attr, nc_err_add_bad_elem, nc_err_add_bad_ns, nc_err_add_info_other"]}
{"id": "C58", "title": "Errors conform to the schema", "statement": "The children of every rpc-error sent are in the sequence the XML schema of RFC 6241 (appendix B) demands, and error-message carries the language it was set with.", "quantifier": "every error and every sequence of setting calls", "why_tests_cant": "tests compare single errors with what the library prints, not with the schema", "anchors": ["src/messages_server.c: nc_err, nc_err_set_app_tag, nc_err_set_path, nc_err_set_msg"]}
{"id": "C59", "title": "At most one answer, and only to what was read", "statement": "From the creation of a pollsession structure on, in every order of additions, removals, polls and changes by the application: a call of nc_ps_poll() sends at most one reply, only on the session it returns, and only as the answer to the message it read there (with the attributes of the request if there was one); the application's callback is asked only if a request with a message-id was read.", "quantifier": "every history of calls, every behaviour of transports, callbacks and locks", "why_tests_cant": "the histories and behaviours of callbacks are unboundedly many", "anchors": ["src/session_server.c: nc_ps_poll, nc_ps_add_session, nc_ps_del_session, nc_ps_clear, nc_server_recv_rpc_io, nc_server_send_reply_io"]}
{"id": "C60", "title": "No termination reason without its cause", "statement": "From the creation of a pollsession structure on, in every order of additions, removals, polls and changes by the application: a session that ended has a reason that the application set, or that a call of nc_ps_poll() set which met its cause: close-session from that session, a closed or failed transport of that session, inactivity of that session reckoned at the end of the call's own timeout (when exactly it is reckoned is C17). Killed is only ever set by the application.", "quantifier": "every history of calls, every behaviour of transports, callbacks and locks", "why_tests_cant": "tests see single histories; the claim is about all causes there can be", "anchors": ["src/session_server.c: nc_ps_poll, nc_ps_poll_sess, nc_ps_poll_session_io, nc_server_recv_rpc_io, nc_server_send_reply_io", "src/session.c: nc_session_set_term_reason, nc_session_set_status"]}
{"id": "C61", "title": "No idle timeout, no end for inactivity", "statement": "With idle timeout 0, in every history of a pollsession structure, no session ever ends for inactivity unless the application says so.", "quantifier": "every history of calls and every time", "why_tests_cant": "absence over unboundedly long histories", "anchors": ["src/session_server.c: nc_ps_poll, nc_ps_poll_session_io, nc_server_set_idle_timeout"]}
{"id": "C62", "title": "A server hands out only running sessions", "statement": "A call of nc_accept(), nc_accept_inout(), nc_session_accept_ssh_channel() or nc_ps_accept_ssh_channel() gives the application a session exactly if it returns NC_MSG_HELLO, and then the session is running and has the id and version of a completed hello exchange.", "quantifier": "every transport behaviour and every message of the peer", "why_tests_cant": "the failures can happen at any point of the exchange", "anchors": ["src/session_server.c: nc_accept, nc_accept_inout, nc_session_accept_ssh_channel, nc_ps_accept_ssh_channel", "src/session.c: nc_handshake_io"]}
{"id": "C63", "title": "A connection is served with the options of its endpoint", "statement": "After any sequence of endpoint additions, removals, address and port changes, the endpoint whose options nc_accept() uses for a connection is the one whose listening socket the connection came to.", "quantifier": "every sequence of operations and every set of waiting connections", "why_tests_cant": "two arrays are changed by different functions; agreement at every position after every sequence is not testable", "anchors": ["src/session_server.c: nc_accept, nc_sock_accept_binds, nc_server_set_address_port", "src/server_config.c: nc_server_config_create_endpoint, nc_server_config_del_endpt_ssh, nc_server_config_del_endpt_tls"]}
{"id": "C64", "title": "References of an accepted configuration end", "statement": "If the check of endpoint references succeeds, every endpoint reference leads to another existing endpoint with the same transport (SSH or TLS), no endpoint refers to itself over any number of steps, and following references from any endpoint, listening or Call Home, comes to one without a reference.", "quantifier": "every set of endpoints and references", "why_tests_cant": "all shapes of reference graphs cannot be enumerated", "anchors": ["src/server_config.c: nc_server_config_check_endpt_references, nc_server_config_check_endpt_reference_cycle", "src/session_server.c: nc_server_get_referenced_endpt"]}
{"id": "C65", "title": "Removing Call Home addresses touches no others", "statement": "nc_client_ch_del_bind() removes only binds matching the arguments, fails exactly if there is none and then changes nothing; calling it until it fails removes all matching binds and keeps all others.", "quantifier": "every list of binds and every combination of arguments", "why_tests_cant": "binds are reordered by removals; all lists cannot be enumerated", "anchors": ["src/session_client.c: nc_client_ch_del_bind"]}
{"id": "C66", "title": "The public keys accepted for a user are those configured", "statement": "After any sequence of configuration changes, authentication of an SSH user with a public key uses exactly what is then configured for the user: the keys in the configuration, the keys of the named truststore bag, the keys of the system, or nothing if nothing is configured; in particular what was removed is no longer accepted, and an attempt never dereferences NULL.", "quantifier": "every sequence of changes of one user's public-keys, every order in which the nodes of a change are visited", "why_tests_cant": "the meaning of a union depends on the whole history of changes; histories are unboundedly many", "anchors": ["src/server_config.c: nc_server_config_public_key, nc_server_config_truststore_reference, nc_server_config_use_system_keys, nc_server_config_public_keys", "src/session_server_ssh.c: nc_server_ssh_auth_pubkey, nc_server_ssh_ts_ref_get_keys", "src/session_p.h: struct nc_auth_client"]}
{"id": "C67", "title": "Key and certificate configuration frees every block once", "statement": "No sequence of configuration changes of a user's keys, of trusted certificates or of host keys frees memory twice, frees something that is not a heap block, or reads memory as something it is not; and when the configuration is removed nothing of it is left allocated.", "quantifier": "every sequence of changes, every order in which the nodes of a change are visited", "why_tests_cant": "needs all histories; a test sees one history and one allocator", "anchors": ["src/server_config.c: nc_server_config_realloc, nc_server_config_del_auth_client_pubkey, nc_server_config_del_auth_client_pubkeys, nc_server_config_del_cert, nc_server_config_del_certs, nc_server_config_truststore_reference, nc_server_config_del_hostkey"]}
{"id": "C68", "title": "The client certificates trusted are those configured", "statement": "After any sequence of configuration changes the CA certificates and the end-entity certificates used to verify TLS clients are exactly those configured: in the configuration, those of the named truststore bag, or none.", "quantifier": "every sequence of changes, every order in which the nodes of a change are visited", "why_tests_cant": "the meaning of a union depends on the whole history of changes", "anchors": ["src/server_config.c: nc_server_config_certificate, nc_server_config_truststore_reference, nc_server_config_del_certs", "src/session_server_tls.c: nc_server_tls_load_trusted_certs, nc_server_tls_verify_peer_cert"]}
{"id": "C69", "title": "The SSH host key used is the one configured", "statement": "Any changes of a host key, between texts in the configuration and references to the keystore, in any order of the nodes, are free of double frees and invalid frees, as is the removal of the host key after them; and after any history of configurations the private key given to the SSH library is the configured one, or the key with the configured name.", "quantifier": "every sequence of configurations and every order of the nodes in each change", "why_tests_cant": "orders and histories are unboundedly many", "anchors": ["src/server_config.c: nc_server_config_public_key, nc_server_config_cleartext_private_key, nc_server_config_keystore_reference, nc_server_config_del_hostkey", "src/session_server_ssh.c: nc_ssh_bind_add_hostkeys"]}
{"id": "C70", "title": "The TLS server identity used is the one configured", "statement": "Any changes of the identity of a TLS server, between a key and certificate in the configuration and references to the keystore, are free of memory errors, and the key and certificate used are those configured.", "quantifier": "every sequence of changes, every order in which the nodes of a change are visited", "why_tests_cant": "the fields overlap in a union with different layouts; whether a stale field is read as a pointer depends on the history", "anchors": ["src/server_config.c: nc_server_config_public_key_format, nc_server_config_public_key, nc_server_config_asymmetric_key, nc_server_config_certificate, nc_server_config_del_tls_opts", "src/session_server_tls.c: nc_server_tls_load_server_cert_key", "src/session_p.h: struct nc_server_tls_opts"]}
{"id": "C71", "title": "Keys in the configuration are exactly those accepted", "statement": "As long as the public keys of a user are only given in the configuration itself (at most 65535 at a time), after any sequence of additions, changes and removals of keys, or of all of them at once, exactly the keys then configured, with their data, are compared with a key of a client; with none configured the method is not offered.", "quantifier": "every sequence of changes of keys", "why_tests_cant": "removal moves entries in the array; agreement after all sequences is not testable", "anchors": ["src/server_config.c: nc_server_config_public_key, nc_server_config_get_pubkey, nc_server_config_del_auth_client_pubkey, nc_server_config_del_auth_client_pubkeys, nc_server_config_realloc", "src/session_server_ssh.c: nc_server_ssh_auth_pubkey"]}
{"id": "C72", "title": "A request is sent as it was asked for or not at all", "statement": "Whatever operation a client asks for with a constructor of messages_client.h and nc_send_rpc(), the tree handed to the transport, read by the YANG modules of the operation, says exactly what the arguments say: the datastores, URLs or contents, the filter and its kind, each option, number, time and list. If libyang refuses any part, or a module is missing, nothing is sent.", "quantifier": "all 23 operations, all values of all arguments, every set of modules, every way libyang refuses nodes", "why_tests_cant": "arguments and refusals by libyang are unboundedly many; a test server accepts what it gets", "anchors": ["src/session_client.c: nc_send_rpc, nc_wd2str", "src/messages_client.c: nc_rpc_*"]}
{"id": "C73", "title": "A constructor lets no malformed filter, content or id through", "statement": "A request made by a constructor of messages_client.h is the one of its arguments; its filter is empty, XML, a path or begins with a letter, its content is empty, XML or begins with a letter, and the session or subscription id, or the period of a new periodic subscription, is not zero.", "quantifier": "all constructors, all arguments", "why_tests_cant": "all texts and all 23 constructors", "anchors": ["src/messages_client.c: nc_rpc_*"]}
{"id": "C74", "title": "A request other than get-data is sent as it was asked for or not at all", "statement": "For every operation but get-data the tree handed to the transport says exactly what the arguments say, different requests are never sent as the same tree, a request that libyang accepts is sent, and no number overflows the buffer it is printed to.", "quantifier": "22 operations, all values of all arguments, every set of modules, every way libyang refuses nodes", "why_tests_cant": "arguments and refusals by libyang are unboundedly many", "anchors": ["src/session_client.c: nc_send_rpc"]}
{"id": "C75", "title": "The SSH algorithms of an endpoint are those configured", "statement": "After any changes of the configuration a server offers, for host keys, key exchange, and encryption and MACs in both directions, exactly the configured algorithms by the names libssh has for them, in the configured order; a change that is refused changes nothing and no change reads outside of the text.", "quantifier": "all algorithm names, all lists, every sequence of additions, insertions, moves and removals, both directions of a connection", "why_tests_cant": "which algorithm is removed from which place of which list has unboundedly many cases; tests load one list", "anchors": ["src/server_config.c: nc_server_config_transport_params, nc_server_config_delete_substring", "src/session_server_ssh.c: nc_accept_ssh_session"]}
{"id": "C76", "title": "The cipher suites of an endpoint are those configured", "statement": "After any changes of the configuration a TLS endpoint has exactly the configured cipher suites in the configured order.", "quantifier": "all names, all lists, every sequence of additions and removals", "why_tests_cant": "tests load one list and never remove from it", "anchors": ["src/server_config.c: nc_server_config_cipher_suite", "src/session_openssl.c: nc_tls_append_cipher_suite_wrap"]}
{"id": "C77", "title": "A TLS version is accepted if and only if it is configured", "statement": "After any sequence of additions and removals of TLS versions an endpoint accepts connections of exactly the versions that are configured.", "quantifier": "every sequence of changes, all versions, OpenSSL and mbedTLS", "why_tests_cant": "all sequences of changes; tests connect with one version", "anchors": ["src/server_config.c: nc_server_config_tls_version", "src/session_openssl.c: nc_server_tls_set_tls_versions_wrap", "src/session_mbedtls.c: nc_server_tls_set_tls_versions_wrap"]}
{"id": "C78", "title": "A certificate is mapped by the configured cert-to-name entries", "statement": "After any changes of the configuration the entries consulted for the user name of a TLS client are those configured, each once, with its map type, name and fingerprint, in the order of their ids.", "quantifier": "every sequence of creations, removals and changes of entries, all ids", "why_tests_cant": "orders of creation and ids are unboundedly many; tests have one or two entries in order", "anchors": ["src/server_config.c: nc_server_config_cert_to_name, nc_server_config_create_cert_to_name, nc_server_config_fingerprint"]}
{"id": "C79", "title": "A newly configured list of algorithms, cipher suites or TLS versions is taken over as it is", "statement": "Algorithms and cipher suites of a new configuration become one text with every configured name, as the libraries name it, once per entry, in order, separated by the separator of the library; the texts are what libssh is given for host keys, key exchange and what the server sends. The versions noted for an endpoint are those configured after any changes.", "quantifier": "all names, lists of any length, every sequence of changes of versions", "why_tests_cant": "lists are unboundedly long", "anchors": ["src/server_config.c: nc_server_config_transport_params, nc_server_config_cipher_suite, nc_server_config_tls_version"]}
{"id": "C80", "title": "Entries of cert-to-name that are added and removed are consulted in the order of their ids", "statement": "Starting without entries, every sequence of valid additions and removals of entries and changes of their fingerprints succeeds and leaves exactly the configured entries, strictly ordered by id.", "quantifier": "every sequence of changes but changes of a map type or a name, all ids, names, map types and fingerprints", "why_tests_cant": "orders of creation and ids are unboundedly many", "anchors": ["src/server_config.c: nc_server_config_create_cert_to_name, nc_server_config_cert_to_name, nc_server_config_fingerprint"]}
{"id": "C81", "title": "The messages of the library arrive as they were made", "statement": "Every request, reply, notification and hello that nc_write_msg_io() reports as sent is what nc_read_msg_io() of the peer returns, with exactly the envelope of its kind, on 1.0 and 1.1 sessions, and so is every sequence of messages, in order and with nothing in between or left over. The client takes a reply for a reply and a notification for a notification. Printed data have no NUL and, on a 1.0 session, not the end-of-message marker; messages have less than 2147483000 bytes.", "quantifier": "all messages of all kinds, both versions, every sequence, every behaviour of the transport without write errors, every fragmentation", "why_tests_cant": "messages, chunk boundaries and fragmentations are unboundedly many", "anchors": ["src/io.c: nc_write_msg_io, nc_read_msg_io", "src/session_client.c: get_msg_type"]}
{"id": "C82", "title": "A message is sent if the transport keeps taking bytes", "statement": "If a transport does not fail and takes at least one byte again and again, in whatever portions, after whatever waiting and interruptions, nc_write_msg_io() returns success after finitely many attempts and has written exactly the framed message.", "quantifier": "all messages of less than 2^32-1024 bytes, all infinite behaviours of a transport", "why_tests_cant": "termination for all infinite behaviours of a transport", "anchors": ["src/io.c: nc_write, nc_write_clb, nc_write_msg_io"]}
{"id": "C83", "title": "Nothing an application passes ends a 1.0 message early", "statement": "On a 1.0 session no capability, event time or other text of an application, and nothing at the seams of a message, makes the end-of-message marker appear inside of a message.", "quantifier": "all texts", "why_tests_cant": "all texts; tests use plain ones", "anchors": ["src/io.c: nc_write_msg_io", "src/messages_server.c: nc_server_notif_new"]}
{"id": "C84", "title": "An SSH client is connected only if the server let it in", "statement": "The authentication of an SSH client succeeds if and only if the server answered one of its authentication requests (none, password, keyboard-interactive, a signature by a key) with success.", "quantifier": "all servers and their answers, all preferences, any number of keys and rounds of prompts", "why_tests_cant": "the product of answers, keys and methods is unbounded; the interesting cases need failing files and servers", "anchors": ["src/session_client_ssh.c: connect_ssh_session"]}
{"id": "C85", "title": "No credentials for a host whose key was not accepted", "statement": "An SSH client sends nothing that authenticates its user before the key of the server was accepted; a key is accepted exactly as the mode of known hosts says (a changed one only in the modes accept and skip, an unknown one in the mode ask only after the answer yes); an entry is added to the known hosts only for an accepted key without one, never in the modes strict and skip.", "quantifier": "all modes, states of the known hosts, texts typed by the user, answers of the server", "why_tests_cant": "all texts typed and all executions", "anchors": ["src/session_client_ssh.c: nc_client_ssh_auth_hostkey_check, connect_ssh_session"]}
{"id": "C86", "title": "SSH authentication methods are tried in the order of preference", "statement": "An SSH client tries each authentication method at most once, only one that the server offers and that is not disabled, and only after every offered method with a higher preference.", "quantifier": "all preferences, offers, answers", "why_tests_cant": "preferences are numbers, answers are unboundedly many", "anchors": ["src/session_client_ssh.c: connect_ssh_session, nc_client_ssh_set_auth_pref"]}
{"id": "C87", "title": "All enabled SSH authentication methods are tried before giving up", "statement": "If the server answers all requests and the user all prompts, an SSH client either gets in or has tried every offered method that is not disabled; only negative preferences disable a method.", "quantifier": "all preferences, offers, answers", "why_tests_cant": "preferences are numbers, answers are unboundedly many", "anchors": ["src/session_client_ssh.c: connect_ssh_session"]}
{"id": "C88", "title": "SSH key pairs of a client are a set with a passphrase for encrypted keys", "statement": "A successful nc_client_ssh_add_keypair() adds exactly the real paths, a failed one nothing; a pair cannot be added twice; nc_client_ssh_del_keypair() removes exactly the pair at the index and fails for an index outside; the passphrase is asked for if the private key is encrypted.", "quantifier": "all sequences of calls, all paths and contents of files", "why_tests_cant": "all contents of files and all indices", "anchors": ["src/session_client_ssh.c: _nc_client_ssh_add_keypair, _nc_client_ssh_del_keypair, _nc_client_ssh_get_keypair"]}
{"id": "C89", "title": "A failed further channel leaves the other sessions of a connection usable", "statement": "When nc_connect_ssh_channel() returns, with a session or without, the I/O lock shared by the sessions of the connection is free.", "quantifier": "every step of the call succeeding or failing", "why_tests_cant": "needs a server that refuses channels", "anchors": ["src/session_client_ssh.c: nc_connect_ssh_channel"]}
{"id": "C90", "title": "Revocation lists are used as served, whatever other distribution points do", "statement": "All CRLs that can be downloaded from the distribution points of the certificates are used exactly as served; a distribution point that fails affects neither the others nor the connection, wherever it is in the order; nothing is used that was not served.", "quantifier": "all lists of distribution points, all data, all ways a download can fail", "why_tests_cant": "needs arbitrary failing servers; data and their number are unbounded", "anchors": ["src/session.c: nc_session_tls_crl_from_cert_ext_fetch, nc_session_curl_cb", "src/session_mbedtls.c: nc_server_tls_add_crl_to_store_wrap"]}
{"id": "C91", "title": "An attempt at a TLS connection releases all it took", "statement": "Whatever step of an attempt to set up a TLS connection fails, on a client or a server, each object made is freed exactly once and the socket is closed exactly once; if it succeeds, freeing the session does so.", "quantifier": "every step succeeding or failing, any number of steps of a handshake, both TLS libraries", "why_tests_cant": "needs failures of every call, leaks and double closes are invisible to most tests", "anchors": ["src/session_client_tls.c: nc_client_tls_session_new, nc_connect_tls, nc_accept_callhome_tls_sock", "src/session_server_tls.c: nc_accept_tls_session", "src/session.c: nc_session_free_transport", "src/session_openssl.c: nc_tls_setup_config_from_ctx_wrap", "src/session_mbedtls.c: nc_tls_init_ctx_wrap"]}
{"id": "C92", "title": "A TLS client verifies whom it talks to", "statement": "Every step of a TLS handshake of a client is made with the trusted certificates loaded, the verification of the peer on and the expected name set: the host given to nc_connect_tls(), localhost if none, the host name of the bind for Call Home; and there is a session only after the handshake was completed.", "quantifier": "all executions, hosts, both TLS libraries", "why_tests_cant": "a universal statement about all paths to a session", "anchors": ["src/session_client_tls.c: nc_client_tls_session_new, nc_connect_tls, nc_accept_callhome_tls_sock"]}
{"id": "C93", "title": "Configured TLS versions and cipher suites are in force", "statement": "When a server makes a TLS handshake, the versions and cipher suites of its configuration are in force, under the names the TLS library knows them by, stored in memory of sufficient size.", "quantifier": "all configurations and executions, both TLS libraries", "why_tests_cant": "tests are built with one TLS library and look at few suites", "anchors": ["src/session_server_tls.c: nc_accept_tls_session", "src/session_mbedtls.c: nc_tls_setup_config_from_ctx_wrap, nc_tls_append_cipher_suite_wrap, nc_tls_process_cipher_suite_wrap"]}
{"id": "C94", "title": "A TLS session is released completely, and nothing of a client twice", "statement": "Freeing a session that came about over TLS, on a client or a server, frees each object made for it exactly once and closes the socket exactly once; no attempt of a client frees an object twice or closes the socket twice, whatever fails.", "quantifier": "every step succeeding or failing, both TLS libraries", "why_tests_cant": "needs failures of every call", "anchors": ["src/session_client_tls.c: nc_client_tls_session_new", "src/session_server_tls.c: nc_accept_tls_session", "src/session.c: nc_session_free_transport"]}
{"id": "C95", "title": "No operation runs without a valid request", "statement": "nc_ps_poll() does not call the callback of an operation unless it read a request with a message-id that libyang accepted: otherwise its result does not depend on what the callback would do.", "quantifier": "all states, all messages, all callbacks", "why_tests_cant": "a non-interference statement about all callbacks", "anchors": ["src/session_server.c: nc_ps_poll, nc_server_recv_rpc_io, nc_server_send_reply_io"]}
{"id": "C96", "title": "At most one reply to what was read", "statement": "One call of nc_ps_poll() sends at most one message, on the session it served; it answers what was read there: with the attributes of the request, an error if it was invalid, and nothing if nothing was read.", "quantifier": "all states and inputs", "why_tests_cant": "all states and inputs", "anchors": ["src/session_server.c: nc_ps_poll, nc_server_send_reply_io"]}
{"id": "C97", "title": "Every termination reason has its cause", "statement": "Whenever the termination reason of a session changes during nc_ps_poll(), or is set after any history of calls, the event that the reason names happened to that session.", "quantifier": "all histories of calls", "why_tests_cant": "all histories", "anchors": ["src/session_server.c: nc_ps_poll, nc_ps_poll_session_io"]}
{"id": "C98", "title": "Which sessions never time out, and when Call Home sessions do", "statement": "nc_ps_poll() never ends a session as timed out if the idle timeout is 0, if it has a notification subscription or if it is a Call Home session (unless a callback of the application sets that reason itself); a Call Home session of a periodic connection is ended exactly if it has none and its idle timeout passed since the last request.", "quantifier": "all states, times", "why_tests_cant": "all times", "anchors": ["src/session_server.c: nc_ps_poll_session_io, nc_server_ch_client_thread_session_cond_wait"]}
{"id": "C99", "title": "A server returns a session exactly after a completed handshake", "statement": "nc_accept() returns NC_MSG_HELLO if and only if it returns a session; that session is running, its transport was accepted and its hello received, and it has the id and version of that handshake.", "quantifier": "all transports, hellos, failures", "why_tests_cant": "all hellos and failures", "anchors": ["src/session_server.c: nc_accept"]}
{"id": "C100", "title": "Removing Call Home binds of a client keeps all others", "statement": "nc_client_ch_del_bind() removes only binds that match and keeps all others; it fails exactly if none matches, changing nothing; repeated until it fails, it leaves no bind that matches.", "quantifier": "all lists of binds, addresses, ports", "why_tests_cant": "all lists", "anchors": ["src/session_client.c: nc_client_ch_del_bind"]}
{"id": "C101", "title": "A connection is served by the endpoint it was accepted on", "statement": "After every sequence of operations on listening endpoints, the bind at each position listens for the endpoint at that position, and a connection accepted by nc_accept() is served with the options of the endpoint whose socket it came in on.", "quantifier": "all sequences of configuration operations", "why_tests_cant": "all sequences", "anchors": ["src/session_server.c: nc_server_add_endpt_unix_socket_listen, nc_server_set_address_port, nc_sock_accept_binds, nc_accept"]}
{"id": "C102", "title": "References between endpoints of an accepted configuration end", "statement": "If the check of references succeeds, each reference is to another endpoint with that name and transport, every chain of references ends and none comes back to where it started.", "quantifier": "all configurations", "why_tests_cant": "all configurations", "anchors": ["src/server_config.c: nc_server_config_check_endpt_references, nc_server_config_check_endpt_reference_cycle"]}
{"id": "C103", "title": "Fingerprints match exactly the certificates with that digest", "statement": "Texts of digests are exact and two of them are equal exactly if the digests are; a configured fingerprint of a well-formed text matches a certificate exactly if the digest of the certificate by the algorithm of its first octet is the one written.", "quantifier": "all digests of at least one byte, all certificates", "why_tests_cant": "all digests", "anchors": ["src/session_server_tls.c: nc_server_tls_digest_to_hex, nc_server_tls_cert_to_name"]}
{"id": "C104", "title": "A failed lock call leaves the lock as it was", "statement": "If a thread's attempt to lock the RPC lock of a session times out or fails, all it did in between is harmless to others and it holds nothing afterwards.", "quantifier": "any number of threads, every interleaving", "why_tests_cant": "all interleavings", "anchors": ["src/session.c: nc_session_rpc_lock"]}
{"id": "C105", "title": "A polling round looks at each session once", "statement": "A round of nc_ps_poll() starts after the session served last and looks at each session at most once, in a circle; it ends at the first session with an event, and without one it has looked at all of them.", "quantifier": "all numbers of sessions, all behaviours of each", "why_tests_cant": "all behaviours", "anchors": ["src/session_server.c: nc_ps_poll"]}
{"id": "C106", "title": "Whom an SSH server let in is connected", "statement": "If the server answered any authentication request of an SSH client with success, the client is connected: it tries nothing more and does not fail.", "quantifier": "all servers, keys, prompts, preferences", "why_tests_cant": "all answers", "anchors": ["src/session_client_ssh.c: connect_ssh_session"]}
{"id": "C107", "title": "No capability ends a hello early", "statement": "The hello of a client or server contains the end-of-message marker in no place, whatever the capabilities are.", "quantifier": "all lists of capabilities", "why_tests_cant": "all texts", "anchors": ["src/io.c: nc_write_msg_io"]}
{"id": "C108", "title": "A server always announces both versions and no capability twice", "statement": "If nc_server_get_cpblts_version() gives a list, it contains both base capabilities and no two capabilities with the same identifier (URI without parameters).", "quantifier": "all contexts and options", "why_tests_cant": "all contexts", "anchors": ["src/session.c: nc_server_get_cpblts_version"]}
{"id": "C109", "title": "On a 1.0 session no server can crash a client", "statement": "Whatever bytes a server sends on a 1.0 session, no sequence of calls of a client that receives replies and notifications has undefined behaviour in the modelled code.", "quantifier": "all byte streams, all sequences of calls", "why_tests_cant": "all byte streams", "anchors": ["src/io.c: nc_read_msg_io", "src/session_client.c: recv_msg, recv_reply, nc_recv_notif"]}
{"id": "C110", "title": "Two peers using the library agree on 1.1", "statement": "If a server and a client both send the hellos the library makes for them, both establish a session of version 1.1.", "quantifier": "all contexts, options, session ids", "why_tests_cant": "all contexts", "anchors": ["src/session.c: nc_handshake_io, nc_send_hello_io, nc_server_recv_hello_io, nc_client_recv_hello_io"]}
{"id": "C111", "title": "SSH public keys made from private keys", "statement": "nc_server_config_add_ssh_hostkey() and the other calls that make the public part of a key pair from a private key of RSA or of a NIST curve write the base64 text of exactly the public key blob of RFC 4253 and RFC 5656 of that key.", "quantifier": "all keys, both TLS libraries", "why_tests_cant": "needs all keys; a test compares one RSA key", "anchors": ["src/server_config_util.c: nc_server_config_util_pkey_to_ssh_pubkey, nc_server_config_util_ssh_pubkey_rsa, nc_server_config_util_ssh_pubkey_ec", "src/session_openssl.c: nc_tls_get_ec_pubkey_params_wrap, nc_tls_get_rsa_pubkey_params_wrap, nc_tls_ec_point_to_binary_wrap"]}
{"id": "C112", "title": "SSH public keys of RSA", "statement": "For every RSA private key with non-zero exponent and modulus, the text made for its public part is the base64 text of the blob of RFC 4253; different keys have different texts; and the server that reads the text back recognises a key of RSA, giving the import of libssh exactly that text.", "quantifier": "all RSA keys (numbers of less than 2^32-1 bytes), both TLS libraries", "why_tests_cant": "all numbers, in particular those whose highest bit is set", "anchors": ["src/server_config_util.c: nc_server_config_util_pkey_to_ssh_pubkey", "src/session_server.c: nc_server_ssh_create_ssh_pubkey"]}
{"id": "C113", "title": "Public key files are read correctly", "statement": "For every file in the format of RFC 4716 the configuration gets exactly the key in it, without its headers; and whenever a file is read with success, there is a key.", "quantifier": "all files in that format", "why_tests_cant": "all headers and line lengths", "anchors": ["src/server_config_util.c: nc_server_config_util_read_ssh2_pubkey, nc_server_config_util_read_openssh_pubkey, nc_server_config_util_get_ssh_pubkey_file"]}
{"id": "C114", "title": "Private keys and certificates survive the configuration", "statement": "If nc_server_config_add_ssh_hostkey(), nc_server_config_add_tls_server_cert() or the keystore calls make a configuration from a private key file, its text is what is between the lines of the key as the libraries write it, the identity of its format leads back to that format, and the text the server later gives to the TLS library, or to libssh in a file, has the same label; the same for certificates.", "quantifier": "all keys and texts, all formats", "why_tests_cant": "all texts and formats", "anchors": ["src/server_config_util.c: nc_server_config_util_get_asym_key_pair, nc_server_config_util_get_privkey, nc_server_config_util_pem_strip_header_footer, nc_server_config_util_read_certificate, nc_server_config_util_privkey_format_to_identityref", "src/session_server_tls.c: nc_base64der_to_privkey", "src/session_server_ssh.c: nc_server_ssh_privkey_data_to_tmp_file"]}
{"id": "C115", "title": "Host keys and temporary files", "statement": "A host key of the configuration is accepted only if libssh accepted a file with that key, and nothing of the key stays in /tmp.", "quantifier": "all failures of the calls on the file", "why_tests_cant": "needs failures of every call", "anchors": ["src/session_server_ssh.c: nc_server_ssh_privkey_data_to_tmp_file, nc_ssh_bind_add_hostkeys"]}
{"id": "C116", "title": "All CRL distribution points are found", "statement": "For every certificate in use and of the store, the URIs CRLs are downloaded from are exactly the URIs of the full names of its distribution points, each once and in order, with both TLS libraries.", "quantifier": "all certificates with any number of extensions, distribution points and names", "why_tests_cant": "all certificates; tests have one with one URI", "anchors": ["src/session_mbedtls.c: nc_server_tls_parse_crl_dist_points, nc_server_tls_get_crl_distpoint_uris_wrap", "src/session_openssl.c: nc_server_tls_get_crl_distpoint_uris_wrap"]}
{"id": "C117", "title": "Parsing distribution points is memory safe", "statement": "Whatever certificates there are, listing their distribution points with mbedTLS has no undefined behaviour.", "quantifier": "all byte sequences as extensions", "why_tests_cant": "all byte sequences", "anchors": ["src/session_mbedtls.c: nc_server_tls_parse_crl_dist_points, nc_server_tls_get_crl_distpoint_uris_wrap"]}
{"id": "C118", "title": "Parsing distribution points stays inside the certificate and ends", "statement": "Whatever bytes the extensions of the certificates are, listing their distribution points with mbedTLS reads no byte outside of them, and it ends.", "quantifier": "all byte sequences as extensions", "why_tests_cant": "all byte sequences", "anchors": ["src/session_mbedtls.c: nc_server_tls_parse_crl_dist_points, nc_server_tls_get_crl_distpoint_uris_wrap"]}
{"id": "C119", "title": "Call Home options follow the configuration", "statement": "After any sequence of valid configurations given by nc_server_config_setup_data() and nc_server_config_setup_diff() the Call Home clients and endpoints of the server and all their options (addresses, ports, transport, keepalives, connection type, reconnect strategy) are those of the resulting configuration, defaults included.", "quantifier": "all sequences of diffs and data", "why_tests_cant": "all sequences of diffs; tests apply a few", "anchors": ["src/server_config.c: nc_server_config_parse_tree, nc_server_config_setup_diff, nc_server_config_setup_data", "src/server_config.c: nc_server_config_netconf_client, nc_server_config_endpoint, nc_server_config_ch_del_endpt, nc_server_config_destroy_ch_client, nc_server_config_ssh, nc_server_config_tls"]}
{"id": "C120", "title": "Configuration is applied in order and stops at the first failure", "statement": "A diff or data are applied node by node in document order with the operation of the node or of its nearest ancestor; descendants of deleted nodes are skipped. If applying fails, all nodes before the failing one have been applied, none after it, and the failing node has changed nothing but possibly added a Call Home client whose thread could not be created.", "quantifier": "all trees and states", "why_tests_cant": "all trees", "anchors": ["src/server_config.c: nc_server_config_parse_tree, nc_server_config_setup_diff, nc_server_config_setup_data"]}
{"id": "C121", "title": "Whole data replace the Call Home configuration", "statement": "If nc_server_config_setup_data() succeeds, the Call Home clients of the server afterwards depend only on the data, not on what was configured before.", "quantifier": "all data and all states before", "why_tests_cant": "all pairs of states", "anchors": ["src/server_config.c: nc_server_config_parse_tree, nc_server_config_setup_diff, nc_server_config_setup_data"]}
{"id": "C122", "title": "Removing a Call Home client is safe at any time", "statement": "Whenever a Call Home client is removed from the configuration, its thread is told to end and has returned when the removal is over, its data are released once, no released or NULL pointer is used and the program is not aborted, for every interleaving of the thread with the removal.", "quantifier": "all executions: interleavings of configuration changes, dispatching and any number of threads", "why_tests_cant": "interleavings depend on the scheduler; tests see a few", "anchors": ["src/session_server.c: nc_ch_client_thread, nc_server_ch_client_thread_session_cond_wait, nc_server_ch_client_thread_is_running_wait, nc_server_ch_client_with_endpt_lock, nc_connect_ch_client_dispatch", "src/server_config.c: nc_server_config_ch_destroy_endpt, nc_server_config_destroy_ch_client, nc_server_config_ch_del_client"]}
{"id": "C123", "title": "A removed Call Home client is not used and its thread ends", "statement": "In every execution, a thread uses the structure of its client only while the client is configured, and no two threads use it at once. The removal of a client that has told a thread to end is over only when the thread has returned and released its data; the thread never has to wait and needs at most three steps for that.", "quantifier": "all executions", "why_tests_cant": "interleavings depend on the scheduler", "anchors": ["src/session_server.c: nc_ch_client_thread, nc_server_ch_client_thread_session_cond_wait, nc_server_ch_client_thread_is_running_wait, nc_server_ch_client_with_endpt_lock, nc_connect_ch_client_dispatch", "src/server_config.c: nc_server_config_ch_destroy_endpt, nc_server_config_destroy_ch_client, nc_server_config_ch_del_client"]}
{"id": "C124", "title": "The context of a client session has the modules of the server", "statement": "When a new client session is established with the automatic fill of its context, every module that the server implements (by its yang-library or, without it, its capabilities) is implemented in the context with the features the server has enabled, or the session is marked as not strict so that unknown data are ignored.", "quantifier": "all servers, local files, callbacks and behaviours of libyang, as functions of all that happened before", "why_tests_cant": "the modules, files and replies are arbitrary; tests use a few servers", "anchors": ["src/session_client.c: nc_ctx_check_and_fill, nc_ctx_fill, nc_ctx_fill_ietf_netconf, nc_ctx_load_module", "src/session_client.c: retrieve_module_data, retrieve_module_data_imp, retrieve_module_data_localfile, retrieve_module_data_getschema", "src/session_client.c: build_module_info_yl, get_oper_data, nc_client_set_new_session_context_schema_mount"]}
{"id": "C125", "title": "The user's module callback is restored", "statement": "After nc_ctx_check_and_fill() the import callback of the context is the one the user had set, whatever failed.", "quantifier": "all servers, local files, callbacks and behaviours of libyang, as functions of all that happened before", "why_tests_cant": "the modules, files and replies are arbitrary; tests use a few servers", "anchors": ["src/session_client.c: nc_ctx_check_and_fill, nc_ctx_fill, nc_ctx_fill_ietf_netconf, nc_ctx_load_module"]}
{"id": "C126", "title": "Sources of modules are tried in order", "statement": "While the context is filled, a <get-schema> is sent only if the server announced ietf-netconf-monitoring, and only after no local file of that name and revision was found, except for imports that libyang asks for without a revision. The callback of the user is called only if there is one, after a local file was not found and <get-schema> gave nothing or could not be used. A local file that is used when a revision is asked for has a revision in its name.", "quantifier": "all servers, local files, callbacks and behaviours of libyang, as functions of all that happened before", "why_tests_cant": "the modules, files and replies are arbitrary; tests use a few servers", "anchors": ["src/session_client.c: nc_ctx_check_and_fill, nc_ctx_fill, nc_ctx_fill_ietf_netconf, nc_ctx_load_module", "src/session_client.c: retrieve_module_data, retrieve_module_data_imp, retrieve_module_data_localfile, retrieve_module_data_getschema"]}
{"id": "C127", "title": "A session whose context was filled is running", "statement": "If filling the context succeeds, the session is still running.", "quantifier": "all servers, local files, callbacks and behaviours of libyang, as functions of all that happened before", "why_tests_cant": "the modules, files and replies are arbitrary; tests use a few servers", "anchors": ["src/session_client.c: nc_ctx_check_and_fill, nc_ctx_fill, nc_ctx_fill_ietf_netconf, nc_ctx_load_module", "src/session_client.c: retrieve_module_data, retrieve_module_data_imp, retrieve_module_data_localfile, retrieve_module_data_getschema", "src/session_client.c: build_module_info_yl, get_oper_data, nc_client_set_new_session_context_schema_mount"]}
{"id": "C128", "title": "The base NETCONF module is always available", "statement": "Every server that can be talked to gets a context in which ietf-netconf is implemented, if need be from the copy in the library.", "quantifier": "all servers, local files, callbacks and behaviours of libyang, as functions of all that happened before", "why_tests_cant": "the modules, files and replies are arbitrary; tests use a few servers", "anchors": ["src/session_client.c: nc_ctx_check_and_fill, nc_ctx_fill, nc_ctx_fill_ietf_netconf, nc_ctx_load_module"]}
{"id": "C129", "title": "The options of the context are restored", "statement": "After nc_ctx_check_and_fill() the search directory and compilation options of the context are what they were before.", "quantifier": "all servers, local files, callbacks and behaviours of libyang, as functions of all that happened before", "why_tests_cant": "the modules, files and replies are arbitrary; tests use a few servers", "anchors": ["src/session_client.c: nc_ctx_check_and_fill, nc_ctx_fill, nc_ctx_fill_ietf_netconf, nc_ctx_load_module"]}
{"id": "C130", "title": "Sockets of outgoing connections have one owner", "statement": "Every socket created for an outgoing connection is at any time exactly one of: closed, the pending socket of its Call Home endpoint, or the socket of one session (or of the client that asked for it). It is never closed twice nor touched after it was closed, and none is left open when the endpoint is removed and its sessions have ended.", "quantifier": "all sequences of attempts, changes of the configuration, removals and ends of sessions, and all outcomes of the system calls", "why_tests_cant": "which system call fails or times out, and when, cannot be chosen in tests; all interleavings with changes of the configuration matter", "anchors": ["src/session_client.c: sock_connect, nc_sock_connect", "src/session_server.c: nc_connect_ch_endpt, nc_ch_client_thread", "src/server_config.c: nc_server_config_ch_del_endpt, nc_server_config_remote_address"]}
{"id": "C131", "title": "A Call Home session knows its peer", "statement": "The host that nc_session_get_host() tells for a Call Home session is the address the session is connected to.", "quantifier": "all sequences of attempts, changes of the configuration, removals and ends of sessions, and all outcomes of the system calls", "why_tests_cant": "which system call fails or times out, and when, cannot be chosen in tests; all interleavings with changes of the configuration matter", "anchors": ["src/session_client.c: sock_connect, nc_sock_connect", "src/session_server.c: nc_connect_ch_endpt, nc_ch_client_thread"]}
{"id": "C132", "title": "A Call Home session is connected to the configured address", "statement": "A Call Home session is connected to an address of the host that was configured for its endpoint when the session was established.", "quantifier": "all sequences of attempts, changes of the configuration, removals and ends of sessions, and all outcomes of the system calls", "why_tests_cant": "which system call fails or times out, and when, cannot be chosen in tests; all interleavings with changes of the configuration matter", "anchors": ["src/session_client.c: sock_connect, nc_sock_connect", "src/session_server.c: nc_connect_ch_endpt, nc_ch_client_thread", "src/server_config.c: nc_server_config_ch_del_endpt, nc_server_config_remote_address"]}
{"id": "C133", "title": "A client connects to the first address that answers", "statement": "A client connecting to a host is connected to the first of the addresses of that host that can be connected, and fails only if there is none (or the options of the socket cannot be set).", "quantifier": "all lists of addresses with any outcome of each attempt", "why_tests_cant": "which system call fails or times out, and when, cannot be chosen in tests; all interleavings with changes of the configuration matter", "anchors": ["src/session_client.c: sock_connect, nc_sock_connect"]}
{"id": "C134", "title": "A Call Home endpoint with an address that answers is connected", "statement": "An attempt to connect a Call Home endpoint whose host has an address that can be connected establishes the connection, at the latest after a bounded number of attempts.", "quantifier": "all sequences of attempts, changes of the configuration, removals and ends of sessions, and all outcomes of the system calls", "why_tests_cant": "which system call fails or times out, and when, cannot be chosen in tests; all interleavings with changes of the configuration matter", "anchors": ["src/session_client.c: sock_connect, nc_sock_connect", "src/session_server.c: nc_connect_ch_endpt, nc_ch_client_thread"]}
{"id": "C135", "title": "Keepalives are set on Call Home connections", "statement": "The configured keepalives have been set on the socket of every Call Home session.", "quantifier": "all sequences of attempts, changes of the configuration, removals and ends of sessions, and all outcomes of the system calls", "why_tests_cant": "which system call fails or times out, and when, cannot be chosen in tests; all interleavings with changes of the configuration matter", "anchors": ["src/session_client.c: sock_connect, nc_sock_connect", "src/session_server.c: nc_connect_ch_endpt, nc_ch_client_thread"]}
{"id": "C136", "title": "TCP_NODELAY is set on Call Home connections", "statement": "TCP_NODELAY has been set on the socket of every Call Home session.", "quantifier": "all sequences of attempts, changes of the configuration, removals and ends of sessions, and all outcomes of the system calls", "why_tests_cant": "which system call fails or times out, and when, cannot be chosen in tests; all interleavings with changes of the configuration matter", "anchors": ["src/session_client.c: sock_connect, nc_sock_connect", "src/session_server.c: nc_connect_ch_endpt, nc_ch_client_thread"]}
{"id": "C137", "title": "The keystore and the truststore follow the configuration", "statement": "After any sequence of nc_server_config_setup_diff() and nc_server_config_setup_data() with valid data, all calls succeed and the server has exactly the asymmetric keys, certificate bags, public key bags, certificates and public keys that are configured, each with its values (public key and format, private key and format, data of the certificate); a value that was removed is no longer there.", "quantifier": "all sequences of calls with any trees of the keystore and of the truststore, with lists of any length", "why_tests_cant": "the number of sequences of diffs is unbounded; deletions reorder the arrays, so what a later diff does depends on all the earlier ones", "anchors": ["src/server_config_ks.c: nc_server_config_parse_keystore and its handlers", "src/server_config_ts.c: nc_server_config_parse_truststore and its handlers", "src/server_config.c: nc_server_config_setup_diff, nc_server_config_setup_data, nc_server_config_parse_tree"]}
{"id": "C138", "title": "Memory of the keystore and the truststore", "statement": "Whatever trees are applied, and whether the calls succeed or fail: every key, bag, certificate and public key ever created is either in one of the lists or was freed, exactly once; arrays are not accessed out of their bounds, as long as no list has 65535 entries or more when another is added. Applying data without keystore and truststore frees all.", "quantifier": "all sequences of calls with any trees of the keystore and of the truststore, with lists of any length", "why_tests_cant": "the number of sequences of diffs is unbounded; deletions reorder the arrays, so what a later diff does depends on all the earlier ones", "anchors": ["src/server_config_ks.c: nc_server_config_parse_keystore and its handlers", "src/server_config_ts.c: nc_server_config_parse_truststore and its handlers", "src/server_config.c: nc_server_config_setup_diff, nc_server_config_setup_data, nc_server_config_parse_tree"]}
{"id": "C139", "title": "Data replace the keystore and the truststore", "statement": "The result of nc_server_config_setup_data(), the return value and the contents of the keystore and of the truststore with their order, does not depend on what was configured before.", "quantifier": "all sequences of calls with any trees of the keystore and of the truststore, with lists of any length; all pairs of histories before the call", "why_tests_cant": "the number of sequences of diffs is unbounded; deletions reorder the arrays, so what a later diff does depends on all the earlier ones", "anchors": ["src/server_config_ks.c: nc_server_config_parse_keystore and its handlers", "src/server_config_ts.c: nc_server_config_parse_truststore and its handlers", "src/server_config.c: nc_server_config_setup_diff, nc_server_config_setup_data, nc_server_config_parse_tree"]}
{"id": "C140", "title": "Answers of a keyboard-interactive client", "statement": "The server waits for the answers of the client until they come, the connection is lost or the auth-timeout since the question is over (0: no limit); answers that come before that are used, and nothing else ends the wait.", "quantifier": "all sequences of turns of the loop, with any clock and any timeout", "why_tests_cant": "a PAM module is an arbitrary program that talks to the client any number of times; when messages come relative to the clock is up to the client", "anchors": ["src/session_server_ssh.c: nc_server_ssh_kbdint_get_nanswers, nc_pam_conv_clb, nc_server_ssh_auth_kbdint_pam, nc_server_ssh_auth_kbdint_system, nc_server_ssh_auth_kbdint"]}
{"id": "C141", "title": "Questions of PAM modules", "statement": "What the client is shown in a keyboard-interactive exchange is exactly the questions of the modules in their order; the echo is on exactly for those of the style PAM_PROMPT_ECHO_ON, so that the answer to a question without echo is never echoed. Nothing is shown for messages that are not acceptable.", "quantifier": "all lists of messages of modules, all behaviours of clients", "why_tests_cant": "a PAM module is an arbitrary program that talks to the client any number of times; when messages come relative to the clock is up to the client", "anchors": ["src/session_server_ssh.c: nc_server_ssh_kbdint_get_nanswers, nc_pam_conv_clb, nc_server_ssh_auth_kbdint_pam, nc_server_ssh_auth_kbdint_system, nc_server_ssh_auth_kbdint"]}
{"id": "C142", "title": "Answers reach the module that asked", "statement": "The conversation function succeeds exactly if the messages are acceptable and the client gave in time as many answers as there are questions. Then the array of responses has one response for each message, for a question the answer to it, as pam_conv(3) says; a failed conversation has no answers in it.", "quantifier": "all lists of messages, all behaviours of clients", "why_tests_cant": "a PAM module is an arbitrary program that talks to the client any number of times; when messages come relative to the clock is up to the client", "anchors": ["src/session_server_ssh.c: nc_server_ssh_kbdint_get_nanswers, nc_pam_conv_clb, nc_server_ssh_auth_kbdint_pam, nc_server_ssh_auth_kbdint_system, nc_server_ssh_auth_kbdint"]}
{"id": "C143", "title": "PAM decides", "statement": "A keyboard-interactive client is authenticated exactly if PAM is configured and started, its modules authenticate the user with the answers the client gave, and the account is valid, or its token has expired and was changed. The account is checked only after a successful authentication, the token changed only if PAM asks for it, and PAM is closed exactly once at the end if it has a handle.", "quantifier": "all PAM stacks as programs with any number of conversations, all behaviours of clients", "why_tests_cant": "a PAM module is an arbitrary program that talks to the client any number of times; when messages come relative to the clock is up to the client", "anchors": ["src/session_server_ssh.c: nc_server_ssh_kbdint_get_nanswers, nc_pam_conv_clb, nc_server_ssh_auth_kbdint_pam, nc_server_ssh_auth_kbdint_system, nc_server_ssh_auth_kbdint"]}
{"id": "C144", "title": "Passwords of the system", "statement": "Without PAM, a keyboard-interactive client is authenticated exactly if the system has a usable password for the user (C32) and the client gave exactly one answer, in time, that is this password; the question is sent without echo.", "quantifier": "all entries of the password database, all days, all behaviours of clients", "why_tests_cant": "a PAM module is an arbitrary program that talks to the client any number of times; when messages come relative to the clock is up to the client", "anchors": ["src/session_server_ssh.c: nc_server_ssh_kbdint_get_nanswers, nc_pam_conv_clb, nc_server_ssh_auth_kbdint_pam, nc_server_ssh_auth_kbdint_system, nc_server_ssh_auth_kbdint"]}
{"id": "C145", "title": "An authentication takes at most the auth-timeout", "statement": "With an auth-timeout T other than 0, a client is authenticated only by what it sent within T seconds since the start of the authentication, and the loop ends then; with T = 0 there is no limit.", "quantifier": "all sequences of turns of the loop with any requests and any clock", "why_tests_cant": "a PAM module is an arbitrary program that talks to the client any number of times; when messages come relative to the clock is up to the client", "anchors": ["src/session_server_ssh.c: nc_accept_ssh_session_auth, nc_server_ssh_kbdint_get_nanswers"]}
{"id": "C146", "title": "A session outlives its notification threads", "statement": "nc_session_free() of a client session frees it only after all its notification threads have ended; none of them uses the session afterwards.", "quantifier": "all interleavings of any number of nc_recv_notif_dispatch() calls, notification threads and nc_session_free()", "why_tests_cant": "interleavings of the threads of the application, the notification threads and the one that frees the session", "anchors": ["src/session_client.c: nc_recv_notif_thread, nc_recv_notif_dispatch_data, nc_session_ntf_thread_running", "src/session.c: nc_session_free (855-874)"]}
{"id": "C147", "title": "Is a notification thread running", "statement": "nc_session_ntf_thread_running() is 1 exactly while a notification thread of the session runs.", "quantifier": "all interleavings as above", "why_tests_cant": "interleavings of the threads of the application, the notification threads and the one that frees the session", "anchors": ["src/session_client.c: nc_recv_notif_thread, nc_recv_notif_dispatch_data, nc_session_ntf_thread_running", "src/session.c: nc_session_free (855-874)"]}
{"id": "C148", "title": "Callbacks of notification threads", "statement": "A notification thread calls the callback once for each notification it received, in their order, until it ends, and never afterwards; user data are freed once, as its last act.", "quantifier": "all interleavings, all sequences of results of receiving", "why_tests_cant": "interleavings of the threads of the application, the notification threads and the one that frees the session", "anchors": ["src/session_client.c: nc_recv_notif_thread, nc_recv_notif_dispatch_data, nc_session_ntf_thread_running", "src/session.c: nc_session_free (855-874)"]}
{"id": "C149", "title": "Told to quit, a notification thread quits", "statement": "After nc_session_free() told the notification threads to quit, each of them calls its callback at most once more.", "quantifier": "all interleavings", "why_tests_cant": "interleavings of the threads of the application, the notification threads and the one that frees the session", "anchors": ["src/session_client.c: nc_recv_notif_thread, nc_recv_notif_dispatch_data, nc_session_ntf_thread_running", "src/session.c: nc_session_free (855-874)"]}
{"id": "C150", "title": "Contexts of client threads live as long as they are used", "statement": "A client context shared by threads (nc_client_get/set_thread_context()) is freed exactly when the last thread that has it leaves it or ends, and is not used afterwards; that of the main thread is never freed.", "quantifier": "all interleavings of threads that are created, share contexts and end, down to single accesses to the counters", "why_tests_cant": "interleavings of the threads of the application, the notification threads and the one that frees the session", "anchors": ["src/session_client.c: nc_client_context_free, nc_client_context_location, nc_client_get_thread_context, nc_client_set_thread_context"]}
{"id": "C151", "title": "Settings of client threads", "statement": "A setting changed in a thread is seen by exactly the threads that share its context; a thread that made no settings has the defaults of the library, the same in all threads.", "quantifier": "all interleavings as above", "why_tests_cant": "interleavings of the threads of the application, the notification threads and the one that frees the session", "anchors": ["src/session_client.c: nc_client_context_free, nc_client_context_location, nc_client_get_thread_context, nc_client_set_thread_context"]}
{"id": "C152", "title": "SSH options in use are those configured", "statement": "After any sequence of nc_server_config_setup_data() and nc_server_config_setup_diff() the users of a listening SSH endpoint with their methods and passwords, its host keys in their order, and auth-timeout are those of the configuration the calls describe.", "quantifier": "all sequences of calls with valid trees of any size", "why_tests_cant": "the state after a sequence of diffs depends on all of them and on the places of entries in arrays that are compacted", "anchors": ["src/server_config.c: nc_server_config_listen, nc_server_config_endpoint, nc_server_config_ssh, nc_server_config_user, nc_server_config_host_key, nc_server_config_password, nc_server_config_none, nc_server_config_use_system_auth, nc_server_config_auth_timeout, nc_server_config_parse_tree, nc_server_config_setup_diff, nc_server_config_setup_data"]}
{"id": "C153", "title": "Entries of SSH options are freed once", "statement": "Every endpoint, user and host key the configuration calls made is either in use or was freed exactly once, no freed one is used, and after the whole configuration is removed all are freed.", "quantifier": "all sequences of calls with valid trees of any size", "why_tests_cant": "the state after a sequence of diffs depends on all of them and on the places of entries in arrays that are compacted", "anchors": ["src/server_config.c: nc_server_config_listen, nc_server_config_endpoint, nc_server_config_ssh, nc_server_config_user, nc_server_config_host_key, nc_server_config_password, nc_server_config_none, nc_server_config_use_system_auth, nc_server_config_auth_timeout, nc_server_config_parse_tree, nc_server_config_setup_diff, nc_server_config_setup_data"]}
{"id": "C154", "title": "Configured users and nobody else are authenticated", "statement": "After any sequence of configuration calls a client is authenticated at an endpoint only as a user configured there, and only by methods configured for that user, a password being compared with the configured one.", "quantifier": "all sequences of calls with valid trees, all sequences of SSH messages", "why_tests_cant": "the state after a sequence of diffs depends on all of them and on the places of entries in arrays that are compacted", "anchors": ["src/server_config.c: nc_server_config_listen, nc_server_config_endpoint, nc_server_config_ssh, nc_server_config_user, nc_server_config_host_key, nc_server_config_password, nc_server_config_none, nc_server_config_use_system_auth, nc_server_config_auth_timeout, nc_server_config_parse_tree, nc_server_config_setup_diff, nc_server_config_setup_data", "src/session_server_ssh.c: nc_server_ssh_auth, nc_server_ssh_auth_password, nc_server_ssh_auth_none"]}
{"id": "C155", "title": "Functions that add to a configuration set what they are for", "statement": "Every nc_server_config_add_*() function given a configuration and any identifiers and values succeeds exactly if libyang takes them; then the leaves documented for it have the given values, their parents exist, the alternatives to them (another case of the choice) are gone; every other node is as before, also after a failure. What is to be refused (unknown transport, map type, start-with, id 0, unreadable files) is refused.", "quantifier": "all configurations, all identifiers and values, all 91 functions for listening endpoints and Call Home, all behaviours of libyang on values", "why_tests_cant": "names are written into paths that libyang reads again, and each of the 91 functions has its own format strings; examples show a few names and trees", "anchors": ["src/server_config_util.c: nc_server_config_create, nc_server_config_append, nc_server_config_delete, nc_server_config_check_delete, nc_server_config_add_address_port, nc_server_config_add_keystore_asym_key, nc_server_config_add_truststore_pubkey, nc_server_config_add_ch_period", "src/server_config_util_ssh.c: nc_server_config_add_ssh_hostkey, nc_server_config_add_ssh_user_pubkey, nc_server_config_del_ssh_truststore_ref", "src/server_config_util_tls.c: nc_server_config_add_tls_server_cert, nc_server_config_add_tls_ctn", "src/server_config.h"]}
{"id": "C156", "title": "Functions that remove from a configuration remove what they are for", "statement": "Every nc_server_config_del_*() function given a configuration removes the documented node and everything below it if it is there, and fails otherwise; all other nodes are as before. Without a name all entries of the list are removed.", "quantifier": "all configurations and identifiers, all functions for listening endpoints and Call Home", "why_tests_cant": "names are written into paths that libyang reads again, and each of the 91 functions has its own format strings; examples show a few names and trees", "anchors": ["src/server_config_util.c: nc_server_config_create, nc_server_config_append, nc_server_config_delete, nc_server_config_check_delete, nc_server_config_add_address_port, nc_server_config_add_keystore_asym_key, nc_server_config_add_truststore_pubkey, nc_server_config_add_ch_period", "src/server_config_util_ssh.c: nc_server_config_add_ssh_hostkey, nc_server_config_add_ssh_user_pubkey, nc_server_config_del_ssh_truststore_ref", "src/server_config_util_tls.c: nc_server_config_add_tls_server_cert, nc_server_config_add_tls_ctn", "src/server_config.h"]}
{"id": "C157", "title": "A configuration is made if there is none", "statement": "Every nc_server_config_add_*() function given *config NULL makes the tree: it has exactly what is set and the parents of it.", "quantifier": "all identifiers and values, all functions", "why_tests_cant": "names are written into paths that libyang reads again, and each of the 91 functions has its own format strings; examples show a few names and trees", "anchors": ["src/server_config_util.c: nc_server_config_create, nc_server_config_append, nc_server_config_delete, nc_server_config_check_delete, nc_server_config_add_address_port, nc_server_config_add_keystore_asym_key, nc_server_config_add_truststore_pubkey, nc_server_config_add_ch_period", "src/server_config_util_ssh.c: nc_server_config_add_ssh_hostkey, nc_server_config_add_ssh_user_pubkey, nc_server_config_del_ssh_truststore_ref", "src/server_config_util_tls.c: nc_server_config_add_tls_server_cert, nc_server_config_add_tls_ctn", "src/server_config.h"]}
{"id": "C158", "title": "A call never loses the configuration", "statement": "After any nc_server_config_add_*() or nc_server_config_del_*() call on a configuration with the container netconf-server, successful or not, whatever the identifiers are, *config still points to a tree with that container and no tree is lost.", "quantifier": "all configurations, identifiers, values and calls", "why_tests_cant": "names are written into paths that libyang reads again, and each of the 91 functions has its own format strings; examples show a few names and trees", "anchors": ["src/server_config_util.c: nc_server_config_create, nc_server_config_append, nc_server_config_delete, nc_server_config_check_delete, nc_server_config_add_address_port, nc_server_config_add_keystore_asym_key, nc_server_config_add_truststore_pubkey, nc_server_config_add_ch_period", "src/server_config_util_ssh.c: nc_server_config_add_ssh_hostkey, nc_server_config_add_ssh_user_pubkey, nc_server_config_del_ssh_truststore_ref", "src/server_config_util_tls.c: nc_server_config_add_tls_server_cert, nc_server_config_add_tls_ctn", "src/server_config.h"]}
{"id": "C159", "title": "Requests are freed safely", "statement": "For every nc_rpc_*() constructor, any parameters and parameter type, and whichever allocations fail: as long as the request lives nothing it refers to has been freed; after nc_rpc_free() (or the constructor's failure) no block was freed twice, none was freed that the library did not allocate or was not handed over, nothing was read that was never set; the blocks given by the caller are freed exactly if they were handed over (NC_PARAMTYPE_FREE) and the request was made.", "quantifier": "all constructors, parameters, parameter types and failing allocations", "why_tests_cant": "the failing allocation can be any of them, for each of 27 constructors and three kinds of ownership; tests free what they made without failures", "anchors": ["src/messages_client.c: nc_rpc_act_generic \u2026 nc_rpc_resyncsub, nc_rpc_free"]}
{"id": "C160", "title": "Nothing allocated for a request is lost", "statement": "Whatever allocation fails, after nc_rpc_free() or the constructor's failure everything allocated for the request is freed.", "quantifier": "all constructors, parameters, parameter types and failing allocations", "why_tests_cant": "the failing allocation can be any of them, for each of 27 constructors and three kinds of ownership; tests free what they made without failures", "anchors": ["src/messages_client.c: nc_rpc_act_generic \u2026 nc_rpc_resyncsub, nc_rpc_free"]}
{"id": "C161", "title": "A request that was made has the parameters it was given", "statement": "A request that was made has every parameter given to its constructor (the caller's block or a copy of it), and an array with all its strings; it is made only of acceptable parameters, and of all of those if no allocation fails.", "quantifier": "all constructors, parameters, parameter types and failing allocations", "why_tests_cant": "the failing allocation can be any of them, for each of 27 constructors and three kinds of ownership; tests free what they made without failures", "anchors": ["src/messages_client.c: nc_rpc_act_generic \u2026 nc_rpc_resyncsub, nc_rpc_free"]}
{"id": "C162", "title": "Replies and the errors added to them are freed once", "statement": "Only error replies take further errors; whatever was added, nc_server_reply_free() frees the reply, the errors taken and the data handed over or copied exactly once and nothing else; the last error is the one given last. If no reply is made nothing is kept and nothing of the caller freed.", "quantifier": "all replies, sequences of added errors, parameter types and failing allocations", "why_tests_cant": "any number of errors in any order, any failing allocation", "anchors": ["src/messages_server.c: nc_server_reply_ok, nc_server_reply_data, nc_server_reply_err, nc_server_reply_add_err, nc_server_reply_get_last_err, nc_server_reply_free"]}
{"id": "C163", "title": "Notifications are freed once", "statement": "After nc_server_notif_free() or a failed nc_server_notif_new() nothing was freed twice, everything allocated is freed, and the event and its time given by the caller exactly if handed over and the notification was made.", "quantifier": "all parameters, parameter types and failing allocations", "why_tests_cant": "the failing allocation can be any of them", "anchors": ["src/messages_server.c: nc_server_notif_new, nc_server_notif_free"]}
{"id": "C164", "title": "Asking at the terminal leaves it as it was", "statement": "After the default callbacks for a password, a passphrase or an interactive answer, whatever fails: every file opened is closed, the buffer is the caller's or freed, and every terminal has the settings it had before (unless the system refuses to restore them). What is to be hidden is never shown while it is typed.", "quantifier": "all answers of the system, all terminals (paths may lead to the same one), all settings", "why_tests_cant": "needs terminals whose calls fail one after the other", "anchors": ["src/session_client_ssh.c: sshauth_password, sshauth_interactive, sshauth_privkey_passphrase, nc_open_tty_noecho, nc_open_in, nc_open_out, nc_close_inout"]}
{"id": "C165", "title": "What is typed is returned", "statement": "The default callbacks return exactly the first line typed (or all up to the end of input), whatever its length, and never write outside of their buffer.", "quantifier": "all inputs and failures", "why_tests_cant": "needs terminals whose calls fail one after the other; lengths beyond the first buffers", "anchors": ["src/session_client_ssh.c: sshauth_password, sshauth_interactive, sshauth_privkey_passphrase, nc_open_tty_noecho, nc_open_in, nc_open_out, nc_close_inout"]}
{"id": "C166", "title": "Host keys are accepted by DNS only if it vouches for them", "statement": "With DNSSEC an unknown key is accepted without asking only if a trusted and secured answer to the question for the host has an SSHFP record with the algorithm of the key and its fingerprint; otherwise the rules of the mode of known hosts apply. Entries are added only for unknown keys that were accepted.", "quantifier": "all answers of the resolver, key types, modes and known hosts", "why_tests_cant": "needs a DNSSEC resolver and answers chosen by an attacker", "anchors": ["src/session_client_ssh.c: sshauth_hostkey_hash_dnssec_check, nc_client_ssh_do_dnssec_sshfp_check, nc_client_ssh_auth_hostkey_check"]}
{"id": "C167", "title": "A record that vouches for the key is found", "statement": "If a trusted and secured answer has an SSHFP record with the fingerprint of the key, the key is accepted without asking.", "quantifier": "all answers of the resolver", "why_tests_cant": "needs a DNSSEC resolver and answers chosen by an attacker", "anchors": ["src/session_client_ssh.c: sshauth_hostkey_hash_dnssec_check, nc_client_ssh_do_dnssec_sshfp_check, nc_client_ssh_auth_hostkey_check"]}
{"id": "C168", "title": "The user is told the truth about DNS", "statement": "Before being asked, the user is told that DNS has a matching fingerprint only if there is such a record.", "quantifier": "all answers of the resolver, key types, modes and known hosts", "why_tests_cant": "needs a DNSSEC resolver and answers chosen by an attacker", "anchors": ["src/session_client_ssh.c: sshauth_hostkey_hash_dnssec_check, nc_client_ssh_do_dnssec_sshfp_check, nc_client_ssh_auth_hostkey_check"]}
{"id": "C169", "title": "Nothing behind a DNS record is read", "statement": "The check of SSHFP records reads only the data of the records.", "quantifier": "all answers of the resolver", "why_tests_cant": "needs a DNSSEC resolver and answers chosen by an attacker", "anchors": ["src/session_client_ssh.c: sshauth_hostkey_hash_dnssec_check, nc_client_ssh_do_dnssec_sshfp_check, nc_client_ssh_auth_hostkey_check"]}
{"id": "C170", "title": "The intervals used are those configured", "statement": "After any changes of the configuration (intervals added, removed, all removed) the notifications about expiring certificates use exactly the configured intervals with the months, weeks, days or hours written there, the default ones if none is configured.", "quantifier": "all sequences of changes, all intervals the type of the leaf allows, all failures of memory", "why_tests_cant": "needs all histories of changes and allocations that fail", "anchors": ["src/server_config.c: nc_server_config_interval, nc_server_config_create_interval, nc_server_config_del_interval, nc_server_config_yang_value2cert_exp_time"]}
{"id": "C171", "title": "Notifications name the certificate they are about", "statement": "The XPath given to the callback denotes the expiration date of the certificate that expires, and different certificates have different XPaths.", "quantifier": "all configurations with certificates in listening endpoints, Call Home clients, keystore and truststore; all names", "why_tests_cant": "needs names that change the structure of an XPath", "anchors": ["src/session_server.c: nc_server_notif_cert_exp_dates_get, nc_server_notif_cert_exp_dates_endpt_get, nc_server_notif_cert_exp_date_append, nc_server_notif_cert_exp_xpath_get"]}
{"id": "C172", "title": "All certificates are watched", "statement": "Every certificate of the configuration that can be read gets its notifications, the first at the first scheduled time from now on.", "quantifier": "all configurations, certificates and times", "why_tests_cant": "needs configurations where one of many certificates is broken", "anchors": ["src/session_server.c: nc_server_notif_cert_exp_dates_get, nc_server_notif_cert_exp_dates_endpt_get, nc_server_notif_cert_exp_date_append, nc_server_notif_cert_exp_xpath_get"]}
{"id": "C173", "title": "The times of certificates are released", "statement": "Whatever fails while certificates are collected, what was allocated is released once and nothing else is touched.", "quantifier": "all configurations and failures", "why_tests_cant": "needs allocations that fail at a chosen place", "anchors": ["src/session_server.c: nc_server_notif_cert_exp_dates_get, nc_server_notif_cert_exp_dates_endpt_get, nc_server_notif_cert_exp_date_append, nc_server_notif_cert_exp_xpath_get"]}
{"id": "C174", "title": "UNIX sockets are where they were asked for", "statement": "After success the socket listens at the configured address, and whatever happens no other file is touched.", "quantifier": "all addresses, files and failures of system calls", "why_tests_cant": "needs addresses at the limit of the system and calls of the system that fail one by one", "anchors": ["src/session_server.c: nc_sock_listen_unix, nc_server_del_endpt_unix_socket_opts"]}
{"id": "C175", "title": "Nobody connects before the permissions are set", "statement": "At every moment a client could connect, the file of the socket has the mode, the user and the group configured.", "quantifier": "all configurations, all failures, every state between two system calls", "why_tests_cant": "needs addresses at the limit of the system and calls of the system that fail one by one", "anchors": ["src/session_server.c: nc_sock_listen_unix, nc_server_del_endpt_unix_socket_opts"]}
{"id": "C176", "title": "UNIX sockets leave nothing behind", "statement": "After listening failed, and after the endpoint was removed, there is neither a descriptor nor a file of the socket.", "quantifier": "all addresses and failures", "why_tests_cant": "needs addresses at the limit of the system and calls of the system that fail one by one", "anchors": ["src/session_server.c: nc_sock_listen_unix, nc_server_del_endpt_unix_socket_opts"]}
{"id": "C177", "title": "Clients reach the socket they name", "statement": "A client connects to the socket that listens at the address it was given and to no other; it reaches a server with the same address.", "quantifier": "all addresses and files", "why_tests_cant": "needs addresses at the limit of the system and calls of the system that fail one by one", "anchors": ["src/session_server.c: nc_sock_listen_unix, nc_server_del_endpt_unix_socket_opts", "src/session_client.c: nc_connect_unix"]}
{"id": "C178", "title": "UNIX sessions belong to the user that connected", "statement": "A session over a UNIX socket has the name the system has for the peer, and every peer with an entry is accepted however large the entry is.", "quantifier": "all users and entries", "why_tests_cant": "needs a user database with entries of any size", "anchors": ["src/session_server.c: nc_accept_unix_session, nc_get_uid", "src/io.c: nc_getpw"]}
{"id": "C179", "title": "Refused UNIX connections leave nothing behind", "statement": "If a connection is refused, its socket is closed exactly once and all memory is released.", "quantifier": "all users and failures", "why_tests_cant": "needs users without an entry", "anchors": ["src/session_server.c: nc_accept_unix_session, nc_get_uid", "src/io.c: nc_getpw"]}
{"id": "C180", "title": "get-schema answers what was asked", "statement": "Data in the answer to <get-schema> are the text of a schema of the server with the name, version and format asked for; if there is such a schema there are data, otherwise an error.", "quantifier": "all requests, contexts and orders of parameters", "why_tests_cant": "needs all contexts and requests", "anchors": ["src/session_server.c: nc_clb_default_get_schema"]}
{"id": "C181", "title": "get-schema answers whole schemas", "statement": "Data in the answer are a text libyang printed successfully.", "quantifier": "all requests and contexts", "why_tests_cant": "needs printers failing in the middle", "anchors": ["src/session_server.c: nc_clb_default_get_schema"]}
{"id": "C182", "title": "Requests that mean several schemas", "statement": "If a request means more than one schema, the answer is an error (RFC 6022, data-not-unique).", "quantifier": "all requests and contexts", "why_tests_cant": "needs contexts with several revisions", "anchors": ["src/session_server.c: nc_clb_default_get_schema"]}
{"id": "C183", "title": "Modules announced can be had", "statement": "For each module in the capabilities of a server, a client that asks for it with <get-schema> gets that module.", "quantifier": "all modules, contexts and capabilities that fit the buffer", "why_tests_cant": "composes the code of the server, of the client and of the callback", "anchors": ["src/session_server.c: nc_clb_default_get_schema", "src/session.c: nc_server_get_cpblts_version", "src/session_client.c: build_module_info_cpblts"]}
{"id": "C184", "title": "Modules are stored where the user wants", "statement": "A client stores modules it retrieved only in the directory configured for them, whatever the server announces.", "quantifier": "all capabilities, answers and files", "why_tests_cant": "needs a hostile server", "anchors": ["src/session_client.c: retrieve_module_data_localfile, retrieve_module_data_getschema", "src/session_client.c: build_module_info_cpblts"]}
{"id": "C185", "title": "Files that exist are kept", "statement": "Retrieving a module changes no file that exists.", "quantifier": "all capabilities, answers and files", "why_tests_cant": "needs a hostile server", "anchors": ["src/session_client.c: retrieve_module_data_localfile, retrieve_module_data_getschema"]}
{"id": "C186", "title": "Stored modules are those of the server", "statement": "A module read from the directory where it was stored is the text the server sent.", "quantifier": "all texts and failures to write", "why_tests_cant": "needs full disks", "anchors": ["src/session_client.c: retrieve_module_data_localfile, retrieve_module_data_getschema"]}
{"id": "C187", "title": "Reading local modules loses nothing", "statement": "What is read is the file found, one with a revision if a revision is wanted, and no memory is lost.", "quantifier": "all files", "why_tests_cant": "needs a search path with files without revision", "anchors": ["src/session_client.c: retrieve_module_data_localfile, retrieve_module_data_getschema"]}
{"id": "C188", "title": "Texts of modules are released as their source says", "statement": "The text from the user's callback is released by the function given with it, and not at all if there is none.", "quantifier": "all callbacks", "why_tests_cant": "needs callbacks with constant texts", "anchors": ["src/session_client.c: retrieve_module_data, retrieve_module_data_imp, free_with_user_data, nc_ctx_load_module"]}
{"id": "C189", "title": "A closed session is released once and whole", "statement": "nc_session_free() releases exactly once everything the session has, including the connection if it is the last session on it, and nothing it shares with others or got from the caller.", "quantifier": "all sessions, transports, sides and failures", "why_tests_cant": "needs all combinations of transports, sides, flags, other sessions and failures", "anchors": ["src/session.c: nc_session_free, nc_session_free_transport, nc_session_free_close_session"]}
{"id": "C190", "title": "Closing uses nothing released", "statement": "While a session is closed, nothing is used or released again after it was released; the structure itself comes last.", "quantifier": "all sessions and failures", "why_tests_cant": "needs all paths", "anchors": ["src/session.c: nc_session_free, nc_session_free_transport, nc_session_free_close_session"]}
{"id": "C191", "title": "The server is told about the end", "statement": "A running client sends <close-session> exactly once, before it releases anything but its queue of messages; servers and sessions not running send nothing.", "quantifier": "all sessions, all messages arriving meanwhile", "why_tests_cant": "needs all schedules of messages", "anchors": ["src/session.c: nc_session_free, nc_session_free_transport, nc_session_free_close_session"]}
{"id": "C192", "title": "Closing comes to an end", "statement": "nc_session_free() returns whatever the server sends.", "quantifier": "all sequences of messages", "why_tests_cant": "needs endless sequences", "anchors": ["src/session.c: nc_session_free, nc_session_free_transport, nc_session_free_close_session"]}
{"id": "C193", "title": "Sessions on one connection close in any order", "statement": "Closing one of several sessions on an SSH connection never stops the process.", "quantifier": "all sessions on a connection", "why_tests_cant": "needs several sessions with different contexts", "anchors": ["src/session.c: nc_session_free, nc_session_free_transport, nc_session_free_close_session"]}
{"id": "C194", "title": "Client options keep what they were given", "statement": "Whatever sequence of option calls a client makes, each getter gives the value set last, and the list of key pairs is that of C88, at the level of pointers and allocations.", "quantifier": "all sequences of calls, all files, all allocations", "why_tests_cant": "needs all sequences of calls and failures of allocation", "anchors": ["src/session_client_tls.c: _nc_client_tls_set_cert_key_paths, _nc_client_tls_set_trusted_ca_paths, _nc_client_tls_destroy_opts", "src/session_client_ssh.c: _nc_client_ssh_add_keypair, _nc_client_ssh_del_keypair, _nc_client_ssh_set_username, _nc_client_ssh_destroy_opts"]}
{"id": "C195", "title": "Client options are never used after release", "statement": "No call of the option functions, in any sequence, reads or releases memory that was released.", "quantifier": "all sequences of calls, all allocations", "why_tests_cant": "needs failing allocations", "anchors": ["src/session_client_tls.c: _nc_client_tls_set_cert_key_paths, _nc_client_tls_set_trusted_ca_paths, _nc_client_tls_destroy_opts", "src/session_client_ssh.c: _nc_client_ssh_add_keypair, _nc_client_ssh_del_keypair, _nc_client_ssh_set_username, _nc_client_ssh_destroy_opts"]}
{"id": "C196", "title": "nc_client_destroy() leaves nothing", "statement": "After any sequence of option calls nc_client_destroy() releases every string and table exactly once.", "quantifier": "all sequences of calls", "why_tests_cant": "needs all sequences of calls and failures", "anchors": ["src/session_client_tls.c: _nc_client_tls_set_cert_key_paths, _nc_client_tls_set_trusted_ca_paths, _nc_client_tls_destroy_opts", "src/session_client_ssh.c: _nc_client_ssh_add_keypair, _nc_client_ssh_del_keypair, _nc_client_ssh_set_username, _nc_client_ssh_destroy_opts"]}
{"id": "C197", "title": "Call Home has its own options", "statement": "What is set for Call Home has no effect on what is set for connecting, and the other way round.", "quantifier": "all sequences of calls", "why_tests_cant": "needs all interleavings of calls", "anchors": ["src/session_client_tls.c: _nc_client_tls_set_cert_key_paths, _nc_client_tls_set_trusted_ca_paths, _nc_client_tls_destroy_opts", "src/session_client_ssh.c: _nc_client_ssh_add_keypair, _nc_client_ssh_del_keypair, _nc_client_ssh_set_username, _nc_client_ssh_destroy_opts"]}
{"id": "C198", "title": "The default order of methods is the documented one", "statement": "If no preference was set, interactive authentication is tried first, a public key last, as session_client.h says.", "quantifier": "all servers", "why_tests_cant": "needs all servers", "anchors": ["src/session_client.c: context_main, nc_client_context_location", "src/session_client.h: nc_client_ssh_set_auth_pref"]}
{"id": "C199", "title": "Writing to a broken connection ends", "statement": "If the system call under a transport fails with an error other than EAGAIN and EINTR, nc_write() fails at that call and sends nothing more.", "quantifier": "all transports, errors, buffers and later events", "why_tests_cant": "needs a connection that breaks at any moment of a write", "anchors": ["src/io.c: nc_read, nc_write, nc_session_is_connected", "src/session_mbedtls.c: nc_server_tls_send, nc_server_tls_recv, nc_tls_read_wrap, nc_tls_write_wrap, nc_tls_close_notify_wrap, nc_server_tls_handshake_step_wrap, nc_client_tls_handshake_step_wrap", "src/session_openssl.c: nc_tls_read_wrap, nc_tls_write_wrap, nc_tls_close_notify_wrap, nc_server_tls_handshake_step_wrap, nc_client_tls_handshake_step_wrap"]}
{"id": "C200", "title": "Reading from a broken connection ends", "statement": "If the system call under a transport fails with an error other than EAGAIN and EINTR, nc_read() fails at that call as an I/O error.", "quantifier": "all transports, errors and numbers of bytes", "why_tests_cant": "needs a connection that breaks at any moment of a read", "anchors": ["src/io.c: nc_read, nc_write, nc_session_is_connected", "src/session_mbedtls.c: nc_server_tls_send, nc_server_tls_recv, nc_tls_read_wrap, nc_tls_write_wrap, nc_tls_close_notify_wrap, nc_server_tls_handshake_step_wrap, nc_client_tls_handshake_step_wrap", "src/session_openssl.c: nc_tls_read_wrap, nc_tls_write_wrap, nc_tls_close_notify_wrap, nc_server_tls_handshake_step_wrap, nc_client_tls_handshake_step_wrap"]}
{"id": "C201", "title": "Closing TLS ends", "statement": "Sending the close notify of TLS returns after a bounded number of calls of the library, whatever they give.", "quantifier": "all sequences of results", "why_tests_cant": "needs a peer that never reads or a broken connection", "anchors": ["src/session_mbedtls.c: nc_server_tls_send, nc_server_tls_recv, nc_tls_read_wrap, nc_tls_write_wrap, nc_tls_close_notify_wrap, nc_server_tls_handshake_step_wrap, nc_client_tls_handshake_step_wrap", "src/session_openssl.c: nc_tls_read_wrap, nc_tls_write_wrap, nc_tls_close_notify_wrap, nc_server_tls_handshake_step_wrap, nc_client_tls_handshake_step_wrap"]}
{"id": "C202", "title": "A handshake on a broken connection ends", "statement": "If the system call under TLS fails for good during a handshake, the handshake fails at that step, on both sides.", "quantifier": "all errors, both sides, all later events", "why_tests_cant": "needs a connection that breaks during the handshake", "anchors": ["src/session_mbedtls.c: nc_server_tls_send, nc_server_tls_recv, nc_tls_read_wrap, nc_tls_write_wrap, nc_tls_close_notify_wrap, nc_server_tls_handshake_step_wrap, nc_client_tls_handshake_step_wrap", "src/session_openssl.c: nc_tls_read_wrap, nc_tls_write_wrap, nc_tls_close_notify_wrap, nc_server_tls_handshake_step_wrap, nc_client_tls_handshake_step_wrap", "src/session_server_tls.c: nc_accept_tls_session", "src/session_client_tls.c: nc_client_tls_session_new"]}
{"id": "C203", "title": "Both TLS libraries are treated the same", "statement": "For bytes moved, no bytes for now, a close notify, an end of file, an error of the protocol and an error of the system, reading and writing give the same result with OpenSSL and with MbedTLS.", "quantifier": "all situations, numbers, codes and data", "why_tests_cant": "needs both libraries and every kind of failure", "anchors": ["src/session_mbedtls.c: nc_server_tls_send, nc_server_tls_recv, nc_tls_read_wrap, nc_tls_write_wrap, nc_tls_close_notify_wrap, nc_server_tls_handshake_step_wrap, nc_client_tls_handshake_step_wrap", "src/session_openssl.c: nc_tls_read_wrap, nc_tls_write_wrap, nc_tls_close_notify_wrap, nc_server_tls_handshake_step_wrap, nc_client_tls_handshake_step_wrap", "src/io.c: nc_read, nc_write, nc_session_is_connected"]}
{"id": "C204", "title": "Writing does not kill the process", "statement": "Writing to a session whose peer is gone never raises SIGPIPE.", "quantifier": "all transports, states of the connection, sequences of results", "why_tests_cant": "needs a peer that closes at any moment", "anchors": ["src/io.c: nc_read, nc_write, nc_session_is_connected", "src/session_mbedtls.c: nc_server_tls_send, nc_server_tls_recv, nc_tls_read_wrap, nc_tls_write_wrap, nc_tls_close_notify_wrap, nc_server_tls_handshake_step_wrap, nc_client_tls_handshake_step_wrap", "src/session_openssl.c: nc_tls_read_wrap, nc_tls_write_wrap, nc_tls_close_notify_wrap, nc_server_tls_handshake_step_wrap, nc_client_tls_handshake_step_wrap"]}
{"id": "C205", "title": "A failed SSH connection leaves nothing", "statement": "If nc_connect_ssh(), nc_connect_libssh() or an SSH Call Home fails, everything made for it and the SSH session and socket it was given are released: no memory, socket or channel stays.", "quantifier": "all failures of the system, the memory, libssh and the peer, at every step", "why_tests_cant": "needs a failure at every step, with the allocations counted", "anchors": ["src/session_client_ssh.c: open_netconf_channel, _nc_connect_libssh, nc_connect_ssh, nc_accept_callhome_ssh_sock", "src/session.c: nc_session_free, nc_session_free_transport"]}
{"id": "C206", "title": "SSH connections end nothing twice", "statement": "However nc_connect_ssh(), nc_connect_libssh() and SSH Call Home run, nothing is released twice, released before it was made, or made while it exists.", "quantifier": "all runs, successful or not", "why_tests_cant": "needs a failure at every step", "anchors": ["src/session_client_ssh.c: open_netconf_channel, _nc_connect_libssh, nc_connect_ssh, nc_accept_callhome_ssh_sock", "src/session.c: nc_session_free, nc_session_free_transport"]}
{"id": "C207", "title": "An SSH session owns what was made for it", "statement": "When connecting over SSH succeeds, what exists is exactly what the session refers to: the SSH session, its socket and channel, its own context, host and user; buffers are gone.", "quantifier": "all successful runs", "why_tests_cant": "needs all combinations of options", "anchors": ["src/session_client_ssh.c: open_netconf_channel, _nc_connect_libssh, nc_connect_ssh, nc_accept_callhome_ssh_sock"]}
{"id": "C208", "title": "A channel that is not opened does no harm", "statement": "If nc_connect_ssh_channel() fails, the sessions on the SSH connection are as before: the ring is the same and their lock is free.", "quantifier": "all rings of sessions, all failures", "why_tests_cant": "needs a server that refuses a second channel", "anchors": ["src/session_client_ssh.c: nc_connect_ssh_channel", "src/session.c: nc_session_free, nc_session_free_transport", "src/session.c: nc_session_io_lock"]}
{"id": "C209", "title": "A new channel gives a session like the first", "statement": "If nc_connect_ssh_channel() succeeds, the new session is in the ring after the one given, the others stay, the lock is free, and host and user are those of the first; it never is undefined behaviour.", "quantifier": "all rings of sessions, all runs", "why_tests_cant": "needs rings of any size", "anchors": ["src/session_client_ssh.c: nc_connect_ssh_channel"]}
{"id": "C210", "title": "No NETCONF before authentication", "statement": "No hello is sent over SSH before connect_ssh_session() accepted the host key and authenticated (unless the caller gave a connected SSH session) and the server accepted the subsystem.", "quantifier": "all runs", "why_tests_cant": "needs all interleavings of failures", "anchors": ["src/session_client_ssh.c: open_netconf_channel, _nc_connect_libssh, nc_connect_ssh, nc_accept_callhome_ssh_sock"]}
{"id": "C211", "title": "The user who logs in is the documented one", "statement": "The user who logs in is the one set in the SSH session, else the one of the options, else that of the effective user (session_client.h).", "quantifier": "all users, options, runs", "why_tests_cant": "needs setuid programs", "anchors": ["src/session_client_ssh.c: open_netconf_channel, _nc_connect_libssh, nc_connect_ssh, nc_accept_callhome_ssh_sock", "src/session_client.h: nc_connect_libssh"]}
{"id": "C212", "title": "Opening a channel ends in time", "statement": "Opening an SSH channel with the NETCONF subsystem ends once the time is over; it succeeds exactly if both requests were answered in time and not refused, and says so if the time was over.", "quantifier": "all sequences of answers", "why_tests_cant": "needs a server that answers late or never", "anchors": ["src/session_client_ssh.c: open_netconf_channel"]}
{"id": "C213", "title": "The server's own YANG context", "statement": "When nc_server_init_ctx succeeds, *ctx has ietf-netconf implemented with all its features and ietf-netconf-monitoring, keeping the other modules of a context the caller gave; a context that has them all is left alone; when it fails, a context of the caller is neither destroyed nor lost, and one the function created is destroyed and *ctx is NULL.", "quantifier": "all contexts, all results of loading", "why_tests_cant": "needs libyang to fail at each load", "anchors": ["src/session_server.c: nc_server_init_ctx"]}
{"id": "C214", "title": "The YANG modules of the configuration", "statement": "When nc_server_config_load_modules succeeds, every module of a server configuration is implemented in *ctx with its own supported features and nothing else in the caller's context is lost; its tables are read within their bounds; when it fails, a context of the caller survives and one it created is destroyed.", "quantifier": "all contexts, all results of loading", "why_tests_cant": "needs libyang to fail at each load", "anchors": ["src/server_config.c: nc_server_config_load_modules"]}
{"id": "C215", "title": "User data of callbacks not used after being freed", "statement": "However a server is initialised, destroyed, given callbacks and used, no user datum of a callback is freed twice or passed to a callback after being freed.", "quantifier": "all sequences of API calls", "why_tests_cant": "needs the library to be initialised again after nc_server_destroy", "anchors": ["src/session_server.c: nc_server_destroy", "src/session_server.c: nc_server_set_content_id_clb", "src/session_server_ssh.c: nc_server_ssh_set_interactive_auth_clb"]}
{"id": "C216", "title": "User data of callbacks freed", "statement": "Each datum given with a freeing callback has been freed once nc_server_destroy returned.", "quantifier": "all sequences of API calls", "why_tests_cant": "needs callbacks set repeatedly", "anchors": ["src/session_server.c: nc_server_destroy", "src/session_server.c: nc_server_set_content_id_clb"]}
{"id": "C217", "title": "What nc_server_init leaves", "statement": "nc_server_init sets up every lock and library or fails, in which case nothing stays set up; the rwlock attribute is destroyed exactly once if it was initialised.", "quantifier": "all combinations of failing calls", "why_tests_cant": "needs pthread, libcurl or libssh initialisation to fail", "anchors": ["src/session_server.c: nc_server_init"]}
{"id": "C218", "title": "Nothing initialised twice", "statement": "When a server is initialised and destroyed in turns, no lock or library is initialised while initialised or destroyed while not.", "quantifier": "all sequences of API calls with successful initialisations", "why_tests_cant": "needs repeated life cycles and locks that notice", "anchors": ["src/session_server.c: nc_server_init", "src/session_server.c: nc_server_destroy"]}
{"id": "C219", "title": "Configuration of the server goes where the schema says", "statement": "Every node of ietf-netconf-server, with whatever keys above it, is stored in (or removed from) its own member of the object its list keys name: the listening endpoint, the Call Home client and endpoint, the host key, user, public key, certificate or mapping. No handler fails to find its place or walks past the root of the tree, although handlers are chosen by the name of the node alone and tell places apart by counting parents.", "quantifier": "all nodes of the schema with the features the library enables, all key values", "why_tests_cant": "names such as public-key, certificate and host-key occur at up to six places each; a test covers the places it configures", "anchors": ["src/server_config.c: nc_server_config_parse_netconf_server", "src/server_config.c: equal_parent_name", "src/server_config.c: nc_server_config_get_ssh_opts", "src/server_config.c: nc_server_config_certificate", "src/server_config.c: nc_server_config_public_key"]}
{"id": "C220", "title": "Keystore and truststore go where the schema says", "statement": "The same for ietf-keystore and ietf-truststore.", "quantifier": "all nodes of both schemas, all key values", "why_tests_cant": "as C219", "anchors": ["src/server_config_ks.c: nc_server_config_parse_keystore", "src/server_config_ts.c: nc_server_config_parse_truststore"]}
{"id": "C221", "title": "No two nodes share a member", "statement": "Two nodes of a configuration that are stored in the same member of the same object are the same node, unless one belongs to SSH and the other to TLS of one endpoint, which the schema excludes; nodes of listening and of Call Home never meet.", "quantifier": "all pairs of nodes, all key values", "why_tests_cant": "needs all pairs of nodes", "anchors": ["src/server_config.c: nc_server_config_parse_netconf_server"]}
{"id": "C222", "title": "A reply is read as the output of the operation that was sent", "statement": "For every request nc_send_rpc() sends, nc_recv_reply() reads the reply as output of the same operation of the same module: of the request functions of the library, of a tree with one operation anywhere in it, and of a text.", "quantifier": "all requests, all module sets, all trees", "why_tests_cant": "the two functions have separate tables of 24 operations; a wrong entry shows only with a reply that carries data", "anchors": ["src/session_client.c: recv_reply_dup_rpc", "src/session_client.c: nc_send_rpc", "src/session_client.c: nc_recv_reply"]}
{"id": "C223", "title": "The caller gets every tree of a reply to a request that was sent", "statement": "After nc_recv_reply() for a request that nc_send_rpc() sends, every tree made on the way is freed or in the caller's two variables; the envelope is set exactly for a reply, the operation exactly if the reply has data.", "quantifier": "all requests that are sent, all replies, all failures of libyang", "why_tests_cant": "leaks depend on combinations of failures", "anchors": ["src/session_client.c: nc_recv_reply", "src/session_client.c: recv_reply", "src/session_client.c: recv_reply_dup_rpc"]}
{"id": "C224", "title": "Waiting for replies frees every tree once", "statement": "While the client waits for the data or the schemas of the server, every tree it receives is freed exactly once, whatever replies and notifications come in between.", "quantifier": "all sequences of replies, notifications, timeouts and failures", "why_tests_cant": "needs a server that answers with foreign message-ids", "anchors": ["src/session_client.c: get_oper_data", "src/session_client.c: retrieve_module_data_getschema"]}
{"id": "C225", "title": "A TLS server presents the certificate configured for the endpoint", "statement": "The certificate and the private key of a connection are both those written at the endpoint, or both of the keystore entry it names, the certificate under the name it names; with names as keys there is one such pair, and if it can be read the connection is set up with it.", "quantifier": "all configurations, all keystores, all behaviours of the TLS library", "why_tests_cant": "needs keystores with several entries that have certificates of the same name", "anchors": ["src/session_server_tls.c: nc_server_tls_load_server_cert_key", "src/session_server_tls.c: nc_server_tls_ks_ref_get_cert_key"]}
{"id": "C226", "title": "Clients are checked against exactly the configured authorities", "statement": "The store of trusted authorities of a TLS connection has exactly the certificates of the endpoint followed by those of the endpoint it references, each read from its own data; if one cannot be read the connection is refused.", "quantifier": "all configurations, truststores and references", "why_tests_cant": "needs combinations of local and referenced certificates", "anchors": ["src/session_server_tls.c: nc_accept_tls_session", "src/session_server_tls.c: nc_server_tls_load_trusted_certs", "src/session_server_tls.c: nc_server_tls_truststore_ref_get_certs"]}
{"id": "C227", "title": "Without certificates to check clients there is no TLS connection", "statement": "If neither the endpoint nor the one it references has authorities or end entity certificates, no TLS connection is set up.", "quantifier": "all configurations", "why_tests_cant": "the count is added up from functions that return errors as counts", "anchors": ["src/session_server_tls.c: nc_server_tls_get_num_certs", "src/session_server_tls.c: nc_accept_tls_session"]}
{"id": "C228", "title": "Setting up a TLS connection loses no certificate", "statement": "If loading certificates fails at any point, everything made before is freed once; if not, nothing is freed and the connection has all of it. Nothing undefined happens if the configuration names everything it refers to.", "quantifier": "all configurations, all failures of the TLS library", "why_tests_cant": "needs failures in the middle of lists", "anchors": ["src/session_server_tls.c: nc_accept_tls_session", "src/session_server_tls.c: nc_server_tls_load_trusted_certs"]}
{"id": "C229", "title": "Messages are printed whole, once, and only up to the level set", "statement": "Over any history of nc_verbosity(), nc_set_print_clb_session() and messages, exactly the errors and the messages of a level not above the last one set are printed, in order, each once and whole, to the callback or to stderr with the label of its level and the id of its session; one for which there is no memory or that cannot be formatted is left out, never cut. All memory is released.", "quantifier": "all histories, all texts shorter than 2^31-1 bytes, all failures of memory", "why_tests_cant": "the buffer is grown only for long texts and only when memory is there", "anchors": ["src/log.c: prv_vprintf", "src/log.c: nc_verbosity", "src/log.c: nc_set_print_clb_session"]}
{"id": "C230", "title": "Printing a message is always defined", "statement": "Whatever the text of a message, printing it does nothing undefined.", "quantifier": "all histories, texts of any length", "why_tests_cant": "needs a text of 2 GiB", "anchors": ["src/log.c: prv_vprintf"]}
{"id": "C231", "title": "A report of supported algorithms is complete or absent", "statement": "Each of the four calls that report the supported SSH algorithms returns 0 and a tree with all its values in order, which is the caller's, or an error and no tree, with everything made on the way released.", "quantifier": "all failures of memory and of libyang at any point, any lists", "why_tests_cant": "needs a failure at each step", "anchors": ["src/server_config.c: nc_server_config_oper_get_algs", "src/server_config.c: nc_server_config_oper_get_hostkey_algs", "src/server_config.c: nc_server_config_oper_get_kex_algs", "src/server_config.c: nc_server_config_oper_get_encryption_algs", "src/server_config.c: nc_server_config_oper_get_mac_algs"]}
{"id": "C232", "title": "The algorithms reported are identities of the YANG modules", "statement": "Each value reported is an identity of the module or of libnetconf2-netconf-server that is derived from the base of the leaf-list, none is there twice, and no algorithm of libssh with such an identity is missing; so the calls succeed whenever libyang takes the identities of its modules.", "quantifier": "all four reports", "why_tests_cant": "the lists are literals that no compiler checks against the YANG modules", "anchors": ["src/server_config.c: nc_server_config_oper_get_algs"]}
{"id": "C233", "title": "A reported algorithm can be configured", "statement": "Any of the algorithms a server reports, configured in any order, are given to libssh under the names of the SSH protocol, separated by commas.", "quantifier": "all selections of reported algorithms", "why_tests_cant": "needs every identity tried against libssh", "anchors": ["src/server_config.c: nc_server_config_transport_params", "src/server_config.c: nc_server_config_oper_get_encryption_algs"]}
{"id": "C234", "title": "A Call Home connection is handled as asked for at its address", "statement": "Whatever addresses a client added and removed before, a connection it accepts arrived at a socket that is still open and goes to the client of the transport asked for at that socket, with the host name given there if it is TLS. nc_accept_callhome() returns 1 exactly if there is a session.", "quantifier": "all histories of adding, removing, arriving and accepting", "why_tests_cant": "two arrays are kept in step by removals that move entries", "anchors": ["src/session_client.c: nc_accept_callhome", "src/session_client.c: nc_client_ch_add_bind_listen", "src/session_client.c: nc_client_ch_del_bind"]}
{"id": "C235", "title": "Call Home addresses of a client: nothing undefined happens", "statement": "No history of adding, removing and accepting does anything undefined.", "quantifier": "all histories, all failures of memory", "why_tests_cant": "needs realloc() to fail", "anchors": ["src/session_client.c: nc_accept_callhome", "src/session_client.c: nc_client_ch_add_bind_listen", "src/session_client.c: nc_client_ch_del_bind"]}
{"id": "C236", "title": "Call Home addresses of a client are released", "statement": "At any time exactly what the client options own is there: of addresses removed, the socket, the address and the host name are released, once.", "quantifier": "all histories", "why_tests_cant": "leaks are not observed by tests", "anchors": ["src/session_client.c: nc_accept_callhome", "src/session_client.c: nc_client_ch_add_bind_listen", "src/session_client.c: nc_client_ch_del_bind"]}
{"id": "C237", "title": "A Call Home connection is handed over or closed", "statement": "Each accepted connection is handed to one SSH or TLS client or closed, and of the listening sockets exactly those of the addresses present are open.", "quantifier": "all histories", "why_tests_cant": "needs failures after accepting", "anchors": ["src/session_client.c: nc_accept_callhome", "src/session_client.c: nc_client_ch_add_bind_listen", "src/session_client.c: nc_client_ch_del_bind"]}
{"id": "C238", "title": "Copies of a client's certificates are freed once", "statement": "While mbedTLS verifies the chain of a client, whatever its certificates, whatever is found of each and whichever allocations or parsings fail, no freed memory is used, every loop ends, and every copy of a certificate made is freed exactly once, except one copy of the client's own certificate that the session keeps and that is kept whenever the client is accepted.", "quantifier": "all chains, all verdicts, all patterns of failures", "why_tests_cant": "needs allocations to fail at each certificate of chains of any length", "anchors": ["src/session_mbedtls.c: nc_server_tls_verify_cb", "src/session_mbedtls.c: nc_server_tls_append_cert_to_chain", "src/session_mbedtls.c: nc_tls_cert_dup", "src/session_mbedtls.c: nc_tls_cert_destroy_wrap"]}
{"id": "C239", "title": "A failing allocation lets no client in", "statement": "A client accepted by a server built with mbedTLS, whichever allocations fail meanwhile, is one that would be accepted, under the same name, by looking at the list of its certificates; if none fails the outcome is the same for every client.", "quantifier": "all chains, options and patterns of failures", "why_tests_cant": "needs allocations to fail inside a handshake", "anchors": ["src/session_mbedtls.c: nc_server_tls_verify_cb", "src/session_mbedtls.c: nc_server_tls_append_cert_to_chain", "src/session_mbedtls.c: nc_tls_cert_dup", "src/session_mbedtls.c: nc_tls_cert_destroy_wrap"]}
{"id": "C240", "title": "Methods offered to an SSH client", "statement": "An SSH client that has named a user of the endpoint and is not yet authenticated is offered, after each of its requests, exactly the methods configured for that user that it has not yet passed; for users of the system, all methods but none.", "quantifier": "all configurations, all sequences of requests", "why_tests_cant": "needs every configuration and order of requests", "anchors": ["src/session_server_ssh.c: nc_server_ssh_auth"]}
{"id": "C241", "title": "What the sender of a message that cannot be parsed is told", "statement": "A message received by the server that cannot be parsed is answered by exactly the error that a table (the relation told) gives for the version of the session, the envelope and the complaint of the parser: its tag, its type and the names reported, in the envelope of the request if there is one; a client of :base:1.0 whose message has no envelope is not answered. The table has one entry for every message.", "quantifier": "all complaints of the parser", "why_tests_cant": "needs every complaint with every shape of quoted names", "anchors": ["src/session_server.c: nc_server_prepare_rpc_err", "src/session_server.c: nc_rpc_err_get_quoted_string"]}
{"id": "C242", "title": "No malformed-message error to 1.0 clients", "statement": "The error malformed-message is not sent to clients that speak only :base:1.0 (RFC 6241 appendix A).", "quantifier": "all messages and sessions", "why_tests_cant": "needs every unparsable message", "anchors": ["src/session_server.c: nc_server_prepare_rpc_err", "src/session_server.c: nc_rpc_err_get_quoted_string"]}
{"id": "C243", "title": "The end of the server releases its endpoints", "statement": "nc_server_destroy() frees every listening endpoint once and closes every listening socket once, configured endpoints and UNIX sockets of the application alike, whatever was added and removed before.", "quantifier": "all sequences of operations on endpoints", "why_tests_cant": "needs every number and order of endpoints", "anchors": ["src/session_server.c: nc_server_destroy", "src/server_config.c: nc_server_config_listen", "src/session_server.c: _nc_server_del_endpt_unix_socket"]}
{"id": "C244", "title": "The killer of a session", "statement": "A session for which a killer is reported has been killed: its termination reason is that it was killed.", "quantifier": "all sequences of calls of the application and of nc_ps_poll()", "why_tests_cant": "needs every order of the setters and of the events of the server", "anchors": ["src/session_server.c: nc_session_set_term_reason", "src/session_server.c: nc_session_set_killed_by"]}
{"id": "C245", "title": "Private keys that need a passphrase", "statement": "A private key added to the client is taken for encrypted exactly if the second line of its file has the word encrypted, in small or capital letters; a file without a second line is refused.", "quantifier": "all contents of files", "why_tests_cant": "needs every content, with lines of any length and any bytes", "anchors": ["src/session_client_ssh.c: _nc_client_ssh_add_keypair"]}
{"id": "C246", "title": "Modules of the yang-library as listed", "statement": "The entry the client makes of a module of the server's yang-library has its name, its revision, its features in their order, and is implemented exactly if the library says so.", "quantifier": "all modules and orders of their children", "why_tests_cant": "needs every order of children", "anchors": ["src/session_client.c: build_module_info_yl"]}
{"id": "C247", "title": "Capabilities that stand for features", "statement": "The server announces writable-running, candidate, confirmed-commit, rollback-on-error, validate, startup and xpath exactly if the features of ietf-netconf they need are enabled in its context, or if the application itself added them; confirmed-commit needs candidate too.", "quantifier": "all contexts, options of the server and versions asked for", "why_tests_cant": "needs every set of features, in every order and with any other features", "anchors": ["src/session_server.c: nc_server_get_cpblts_version", "src/session_server.c: add_cpblt"]}
{"id": "C248", "title": "Capabilities that stand for modules", "statement": "Every implemented module of the YANG version asked for has exactly one entry with its namespace among the announced capabilities, it names the module and its revision unless something else uses that namespace; ietf-yang-library is announced with its revision and the identifier of the content.", "quantifier": "all contexts, options of the server and versions asked for", "why_tests_cant": "needs every list of modules and every set of capabilities added by the application", "anchors": ["src/session_server.c: nc_server_get_cpblts_version"]}
{"id": "C249", "title": "Preferences of authentication methods", "statement": "After any calls that set preferences, each method has the value of its last call, or -1 if that was negative; a connection never tries a method disabled so, and tries enabled ones in the order of their values.", "quantifier": "all sequences of calls and all servers", "why_tests_cant": "needs every order of calls and every behaviour of the server", "anchors": ["src/session_client_ssh.c: nc_client_ssh_set_auth_pref", "src/session_client_ssh.c: nc_client_ssh_get_auth_pref", "src/session_client_ssh.c: connect_ssh_session"]}
{"id": "C250", "title": "Memory of a listening endpoint", "statement": "Over any changes of the configuration of a listening endpoint, its address, options and socket are released exactly once, and the options are those of its transport.", "quantifier": "all sequences of changes, and all failures to listen", "why_tests_cant": "needs every history of a configuration", "anchors": ["src/server_config.c: nc_server_config_ssh", "src/server_config.c: nc_server_config_tls", "src/server_config.c: nc_server_config_local_address", "src/server_config.c: nc_server_config_local_port", "src/session_server.c: nc_server_set_address_port"]}
{"id": "C251", "title": "Change of the transport of an endpoint", "statement": "A listening endpoint with an address never completes a change from SSH to TLS or back: whatever it went through and in whatever order the nodes come, the address is freed twice, a socket closed twice, options are taken for those of the other transport, or the change fails.", "quantifier": "all histories of the endpoint and all contents of the new container", "why_tests_cant": "needs every history of a configuration", "anchors": ["src/server_config.c: nc_server_config_del_ssh_opts", "src/server_config.c: nc_server_config_del_tls_opts"]}
{"id": "C252", "title": "Revision of a submodule asked for", "statement": "When libyang asks for a submodule, the client asks the server for the revision that the server listed for that submodule of the including module, or for the revision given.", "quantifier": "all lists of modules, names and revisions", "why_tests_cant": "needs every list of modules of a server", "anchors": ["src/session_client.c: retrieve_module_data_imp"]}
{"id": "C253", "title": "Tag and type of an error read back", "statement": "The tag and the type read from an rpc-error are those its first error-tag and first error-type name after RFC 6241 appendix A, and unknown otherwise.", "quantifier": "all trees of an rpc-error", "why_tests_cant": "needs every text of the two elements and every other content", "anchors": ["src/messages_server.c: nc_err_get_tag", "src/messages_server.c: nc_err_get_type"]}
{"id": "C254", "title": "Idle timeout in force", "statement": "The idle timeout of the server is the one last configured, or 180 s if none is configured.", "quantifier": "all histories of the configuration", "why_tests_cant": "needs every order of changes", "anchors": ["src/server_config.c: nc_server_config_idle_timeout", "src/server_config.c: nc_server_config_listen", "src/server_config.c: nc_server_config_setup_data"]}
{"id": "C255", "title": "Whole data and the intervals of certificate notifications", "statement": "After nc_server_config_setup_data() the intervals used for notifications about expiring certificates are those of the data.", "quantifier": "all histories of single intervals and all whole data", "why_tests_cant": "needs every history of the configuration", "anchors": ["src/server_config.c: nc_server_config_setup_data", "src/server_config.c: nc_server_config_fill_libnetconf2_netconf_server"]}
{"id": "C256", "title": "Where imports are looked for", "statement": "While libyang fills the context of a client, an imported module or included submodule whose revision is given, or whose module the server listed, is looked for in local files, then asked of the server, then of the user's callback; if the revision is not known the server is asked before the local files; the search ends with the first source that has the data, and sources the client does not have are not asked.", "quantifier": "all servers, local files, callbacks and requests of libyang", "why_tests_cant": "needs every combination of sources and answers", "anchors": ["src/session_client.c: retrieve_module_data_imp"]}
{"id": "C257", "title": "Submodules without a revision", "statement": "A submodule that the server lists without a revision is looked for neither in local files, nor on the server, nor with the user's callback.", "quantifier": "all lists of modules and all contents of the sources", "why_tests_cant": "needs every list of modules", "anchors": ["src/session_client.c: retrieve_module_data_imp"]}
{"id": "C258", "title": "Whole data that are refused", "statement": "If nc_server_config_setup_data() fails, the Call Home clients are as before.", "quantifier": "all data and all configurations", "why_tests_cant": "needs every configuration and every failing node", "anchors": ["src/server_config.c: nc_server_config_setup_data"]}
{"id": "C259", "title": "Threads never block each other for ever", "statement": "Any number of threads of the application that call any server functions in any order, Call Home threads, and the certificate notification thread never reach a state where all that are not finished wait for each other's locks or ends, and can always be brought to their ends, provided that callbacks call only: functions of poll sessions, of notification status, start and stop without waiting of certificate notifications; in addition new_session_cb: nc_server_ch_is_client, nc_server_ch_client_is_endpt, nc_connect_ch_client_dispatch; the authentication callbacks of nc_accept(): these and nc_session_free, nc_ps_clear; the certificate callback: anything but a waiting stop and nc_server_destroy.", "quantifier": "all numbers of threads, clients and sessions, all sequences of calls, all interleavings, both policies of read locks", "why_tests_cant": "needs every interleaving of any number of threads", "anchors": ["src/session_server.c: nc_server_ch_client_lock", "src/session_server.c: nc_ch_client_thread", "src/session_server.c: nc_accept", "src/server_config.c: nc_server_config_setup_diff", "src/server_config.c: nc_server_config_destroy_ch_client", "src/session.c: nc_session_free"]}
{"id": "C260", "title": "Locks are given back", "statement": "On every way through the server functions, error ends included, a thread gives back only locks that it has, and has none when it ends.", "quantifier": "all threads, ways and interleavings", "why_tests_cant": "needs every error path of every function", "anchors": ["src/session_server.c: nc_server_ch_client_lock", "src/session_server.c: nc_ch_client_thread", "src/session_server.c: nc_accept", "src/server_config.c: nc_server_config_setup_diff", "src/server_config.c: nc_server_config_destroy_ch_client", "src/session.c: nc_session_free"]}
{"id": "C261", "title": "What callbacks must not call", "statement": "For every callback and every server function that C259 does not allow there, there is an application whose callbacks call nothing but that function and that comes to a deadlock.", "quantifier": "all pairs of callbacks and functions", "why_tests_cant": "needs the right interleaving for each pair", "anchors": ["src/session_server.c: nc_server_ch_client_lock", "src/session_server.c: nc_ch_client_thread", "src/session_server.c: nc_accept", "src/server_config.c: nc_server_config_setup_diff", "src/server_config.c: nc_server_config_destroy_ch_client", "src/session.c: nc_session_free"]}
{"id": "C262", "title": "The array of Call Home clients", "statement": "No two threads ever use the array of Call Home clients at the same time if one of them writes to it.", "quantifier": "as C259", "why_tests_cant": "needs every interleaving", "anchors": ["src/session_p.h: ch_client_lock", "src/server_config.c: nc_server_config_create_netconf_client", "src/server_config.c: nc_server_config_ch_del_client"]}
{"id": "C263", "title": "Data of one Call Home client", "statement": "No two threads ever use the data of a configured Call Home client at the same time if one of them writes to them.", "quantifier": "as C259", "why_tests_cant": "needs every interleaving", "anchors": ["src/session_p.h: ch_client_lock", "src/session_server.c: nc_server_ch_client_is_endpt"]}
{"id": "C264", "title": "Endpoints, keystore and truststore", "statement": "No two threads ever use the listening endpoints, the keystore and the truststore at the same time if one of them writes to them.", "quantifier": "as C259", "why_tests_cant": "needs every interleaving", "anchors": ["src/session_p.h: config_lock", "src/session_server.c: nc_connect_ch_endpt", "src/session_server_ssh.c: nc_server_ssh_ts_ref_get_keys", "src/session_server_tls.c: nc_server_tls_truststore_ref_get_certs"]}
{"id": "C265", "title": "A stored key pair is a pair", "statement": "When a configuration is made from a private key file, and optionally a public key file, the private and the public key text stored are of one and the same key, the public one in the format asked for (SSH or SubjectPublicKeyInfo).", "quantifier": "all libraries' results, all files, both formats", "why_tests_cant": "all keys and files", "anchors": ["src/server_config_util.c: nc_server_config_util_get_asym_key_pair", "src/server_config_util.c: nc_server_config_util_pkey_to_ssh_pubkey", "src/server_config_util.c: nc_server_config_util_pkey_to_spki_pubkey"]}
{"id": "C266", "title": "A public key file is stored as its key", "statement": "When a public key file is given, the public key stored is the key of that file in the format asked for: always for SubjectPublicKeyInfo, and for SSH if the file is PEM.", "quantifier": "all libraries' results, all files, both formats", "why_tests_cant": "all keys and files", "anchors": ["src/server_config_util.c: nc_server_config_util_get_asym_key_pair", "src/server_config_util.c: nc_server_config_util_pkey_to_ssh_pubkey", "src/server_config_util.c: nc_server_config_util_pkey_to_spki_pubkey", "src/server_config_util.c: nc_server_config_util_get_ssh_pubkey_file", "src/server_config_util.c: nc_server_config_util_get_spki_pubkey_file"]}
{"id": "C267", "title": "Freeing a session waits for those who use it", "statement": "nc_session_free() waits in vain exactly once for each of: a thread handling an RPC of the session, a thread that has its message queue, a thread that has its transport, notification threads that do not stop, a Call Home thread that does not stop; so at most three times, and not at all if there is none of them.", "quantifier": "all sessions and results of locks", "why_tests_cant": "needs every combination of other threads", "anchors": ["src/session.c: nc_session_free", "src/session.c: nc_session_free_transport"]}
{"id": "C268", "title": "Threads on one pollsession do not use freed memory", "statement": "Whatever threads add, poll, remove, free and clear sessions of one pollsession structure, none of them uses an entry or a session that was freed before.", "quantifier": "all numbers of threads, all interleavings, all sessions and handlers", "why_tests_cant": "needs every interleaving of threads", "anchors": ["src/session_server.c: nc_ps_poll", "src/session_server.c: nc_ps_del_session", "src/session_server.c: nc_ps_clear", "src/session.c: nc_session_free"]}
{"id": "C269", "title": "One thread at a time handles a session", "statement": "At no time do two threads handle RPCs of one session, whatever the application does with the structure and the sessions.", "quantifier": "all numbers of threads, all interleavings, all sessions and handlers", "why_tests_cant": "needs every interleaving of threads", "anchors": ["src/session_server.c: nc_ps_poll", "src/session_server.c: nc_ps_del_session", "src/session_server.c: nc_ps_clear", "src/session.c: nc_session_free"]}
{"id": "C270", "title": "The end of a session is told once", "statement": "Of all calls of nc_ps_poll() in all threads at most one says that a given session has terminated, and none says so while an RPC of the session is being handled; sessions that are being handled are not freed.", "quantifier": "all numbers of threads, all interleavings, all sessions and handlers", "why_tests_cant": "needs every interleaving of threads", "anchors": ["src/session_server.c: nc_ps_poll", "src/session_server.c: nc_ps_del_session", "src/session_server.c: nc_ps_clear", "src/session.c: nc_session_free"]}
{"id": "C271", "title": "A session is not used after it was freed", "statement": "If sessions are freed only after nc_ps_del_session() took them out of the structure, or by nc_ps_clear(), no thread uses one that was freed.", "quantifier": "all numbers of threads, all interleavings, all sessions and handlers", "why_tests_cant": "needs every interleaving of threads", "anchors": ["src/session_server.c: nc_ps_poll", "src/session_server.c: nc_ps_del_session", "src/session_server.c: nc_ps_clear", "src/session.c: nc_session_free"]}
{"id": "C272", "title": "The callback of a request is the documented one", "statement": "Whatever functions the application sets and whenever, a request is handled by exactly one function: the one set last for its RPC or action; if there is none, the global one set last; if there is none, the default for get-schema and close-session; and if it is another operation it is answered with operation-not-supported.", "quantifier": "all schemas, all histories of setting functions and accepting sessions, all requests", "why_tests_cant": "needs every order of calls", "anchors": ["src/session_server.c: nc_server_init_cb_ctx", "src/session_server.c: nc_server_send_reply_io", "src/session_server.c: nc_set_global_rpc_clb", "src/netconf.h: nc_set_rpc_callback"]}
{"id": "C273", "title": "Operations without defaults have the documented callback", "statement": "For all operations but get-schema and close-session a request is handled by the function set last for its RPC or action, wherever the action is in the data; if there is none, by the global one set last; if there is none, it is answered with operation-not-supported. Data with neither RPC nor action are handed to no function.", "quantifier": "all schemas, all histories of setting functions and accepting sessions, all requests", "why_tests_cant": "needs every order of calls and every shape of data", "anchors": ["src/session_server.c: nc_server_init_cb_ctx", "src/session_server.c: nc_server_send_reply_io", "src/session_server.c: nc_set_global_rpc_clb", "src/netconf.h: nc_set_rpc_callback"]}
{"id": "C274", "title": "Waiting for an SSH client is limited", "statement": "While an SSH session is being accepted the server goes on waiting only as long as it was told to: for the key exchange and for the channel with the netconf subsystem less than the timeout of nc_accept_ssh_session() in milliseconds, for authentication less than auth-timeout seconds unless that is 0.", "quantifier": "all clients, messages, timeouts and clock readings", "why_tests_cant": "needs clients that wait for hours", "anchors": ["src/session_server_ssh.c: nc_accept_ssh_session", "src/session_server_ssh.c: nc_accept_ssh_session_auth", "src/session_server_ssh.c: nc_accept_ssh_session_open_netconf_channel"]}
{"id": "C275", "title": "An SSH session has gone the whole way", "statement": "When nc_accept_ssh_session() reports success, the client was told that authentication succeeded for the user the session has, then that a channel is open, and the last thing it was told is that the subsystem netconf runs on that channel; in that order.", "quantifier": "all clients, messages and interleavings with waiting", "why_tests_cant": "needs every sequence of SSH messages", "anchors": ["src/session_server_ssh.c: nc_accept_ssh_session", "src/session_server_ssh.c: nc_accept_ssh_session_auth", "src/session_server_ssh.c: nc_accept_ssh_session_open_netconf_channel"]}
{"id": "C276", "title": "Receiving a message is limited in time", "statement": "Once reading of a message began, the session is given up when the message is not there after 300 seconds, or when nothing comes for 20 seconds; it is not given up for the time otherwise.", "quantifier": "all peers, message lengths, sequences of reads and clock readings", "why_tests_cant": "needs peers that send slowly for minutes", "anchors": ["src/io.c: nc_read", "src/io.c: nc_read_until", "src/io.c: nc_read_msg_io"]}
{"id": "C277", "title": "What waiting for a message reports", "statement": "nc_read_msg_poll_io() on a usable session takes the lock of the transport at most once and gives it back as the last thing; it returns 0 and leaves the session alone if the peer is silent, makes the session invalid with the reason dropped if the peer closed and with the reason other if the transport failed, and reads a message, once, exactly if there is something to be read.", "quantifier": "all transports, answers of poll() and libssh, timeouts, and changes of the session by other threads while the lock is waited for", "why_tests_cant": "needs every combination of poll results, transports and races", "anchors": ["src/io.c: nc_read_poll", "src/io.c: nc_read_msg_poll_io", "src/io.c: nc_read_msg_io", "src/session.c: nc_session_io_lock"]}
{"id": "C278", "title": "Waiting for a message takes the timeout", "statement": "With a positive timeout it is known within that timeout (and a millisecond) whether there is a message to be read.", "quantifier": "all transports, timeouts, answers of poll() with interrupts, lock contention", "why_tests_cant": "needs a thread that has the lock for nearly the timeout", "anchors": ["src/io.c: nc_read_poll", "src/io.c: nc_read_msg_poll_io", "src/io.c: nc_read_msg_io", "src/session.c: nc_session_io_lock"]}
{"id": "C279", "title": "A reply answers the request it is accepted for", "statement": "A request that nc_send_rpc() reports as sent arrives at the server whole and with the id reported; if the server finds an operation in it, its callback does not end the session and the transport takes the reply, there is exactly one reply, the one due for the operation, and it arrives at the client; nc_recv_reply() accepts it for that id and for no other. This holds for requests and replies without NUL, with 1.0 without the end-of-message marker, below 2 GB, and as long as there is memory and the ids do not wrap.", "quantifier": "all requests, replies, states of client and server, versions of framing, fragmentations by the transport, data before and after, and notifications read before", "why_tests_cant": "joins both ends: every fragmentation and state of two programs", "anchors": ["src/session_client.c: nc_send_rpc", "src/session_client.c: nc_recv_reply", "src/io.c: nc_write_msg_io", "src/io.c: nc_read_msg_io", "src/session_server.c: nc_ps_poll"]}
{"id": "C280", "title": "Requests arrive once and in order", "statement": "If each of any number of calls of nc_send_rpc() reports the request as sent or the session as busy, the server reads exactly the requests reported as sent, each once, in the order of the calls, with the ids reported. Same limits for the content of requests.", "quantifier": "all sequences of requests, versions, fragmentations", "why_tests_cant": "needs unbounded sequences", "anchors": ["src/session_client.c: nc_send_rpc", "src/io.c: nc_write_msg_io", "src/io.c: nc_read_msg_io"]}
{"id": "C281", "title": "Names of TLS clients are those of the YANG module", "statement": "If a cert-to-name entry takes the name from subject alternative names, the user name is the one that ietf-x509-cert-to-name gives to the first alternative name of that kind: an e-mail address with its host part in lower case, a DNS name in lower case, an IPv4 address as dotted quad, an IPv6 address as 32 lower-case hexadecimal digits; and there is no name exactly if there is no alternative name of the kind.", "quantifier": "all certificates, kinds of entries and both TLS libraries", "why_tests_cant": "all certificates", "anchors": ["src/session_server_tls.c: nc_server_tls_get_username", "src/session_openssl.c: nc_tls_get_san_value_type_wrap", "src/session_mbedtls.c: nc_tls_get_san_value_type_wrap"]}
{"id": "C282", "title": "Both TLS libraries give the same name", "statement": "For the same alternative names a server with OpenSSL and one with mbedTLS give the same result, a user name, none or an error, also when memory runs out.", "quantifier": "all lists of alternative names, kinds of entries, failing allocations", "why_tests_cant": "needs two builds and failing allocations at every place", "anchors": ["src/session_server_tls.c: nc_server_tls_get_username", "src/session_openssl.c: nc_tls_get_san_value_type_wrap", "src/session_mbedtls.c: nc_tls_get_san_value_type_wrap"]}
{"id": "C283", "title": "Only messages reported as sent arrive", "statement": "Whatever the transport does while messages are sent one after another, the peer reads exactly the messages that were reported as sent, in order; the beginning of a message whose sending failed is never read as a message or as part of one.", "quantifier": "all sequences of messages, both framings, all moments at which the connection ends or stops taking data, all fragmentations", "why_tests_cant": "the connection can end at every byte", "anchors": ["src/io.c: nc_write", "src/io.c: nc_write_msg_io", "src/io.c: nc_read_msg_io"]}
{"id": "C284", "title": "Two programs using the library understand each other", "statement": "From the first byte on: each peer reads the hello of the other, both end with version 1.1 and the session id of the server; the server then reads, in the framing of 1.1, exactly the requests the client reports as sent, each once, in order and with the ids reported; the client reads exactly the replies and notifications the server reports as sent, in order. The change of the framing loses and adds nothing, however the transport cuts the bytes.", "quantifier": "all capabilities of the server, ids, sequences of requests and messages, fragmentations", "why_tests_cant": "joins hello, change of framing and messages; every cut of the bytes", "anchors": ["src/io.c: nc_send_hello_io", "src/session.c: nc_handshake_io", "src/io.c: nc_write_msg_io", "src/io.c: nc_read_msg_io", "src/session_client.c: nc_send_rpc"]}
{"id": "C285", "title": "An mbedTLS wrapper that runs out of memory undoes what it did", "statement": "When an allocation or a step of the library fails while the random number generator, a private key, or the public numbers of an RSA or EC key are made, the call reports the failure, leaves nothing allocated, releases what the objects own and never releases an object that was not initialised; when it succeeds it leaves exactly the objects it returns.", "quantifier": "all patterns of failing allocations, all outcomes of the library calls, all states of memory", "why_tests_cant": "needs a failure of each single allocation; undefined behaviour need not show", "anchors": ["src/session_mbedtls.c: nc_tls_rng_new", "src/session_mbedtls.c: nc_tls_rng_destroy", "src/session_mbedtls.c: nc_tls_pem_to_privkey_wrap", "src/session_mbedtls.c: nc_tls_import_privkey_file_wrap", "src/session_mbedtls.c: nc_tls_get_rsa_pubkey_params_wrap", "src/session_mbedtls.c: nc_tls_get_ec_pubkey_params_wrap"]}
{"id": "C286", "title": "The text of TLS errors holds every reason and stays in its buffer", "statement": "Whatever errors OpenSSL has queued, the text made of them for the log is all their reasons in order, separated by semicolons, and it is written within the memory reserved for it.", "quantifier": "all queues of errors, all patterns of failing allocations", "why_tests_cant": "sizes depend on every reason; an overrun of a byte need not show", "anchors": ["src/session_openssl.c: nc_tls_get_err_reasons"]}
{"id": "C287", "title": "The reported host and port tell who connected", "statement": "The host and the port the server reports of an accepted connection are the address and the port of the client: two clients that are reported alike are the same.", "quantifier": "all clients of all address families, all ports, all systems whose inet_ntop() is faithful", "why_tests_cant": "byte order and rendering over all ports and addresses; clients at one address must be compared", "anchors": ["src/session_server.c: nc_sock_accept_binds", "src/session_server.c: sock_host_inet", "src/session_server.c: sock_host_inet6", "src/session_server.c: sock_host_unix"]}
{"id": "C288", "title": "A connection that cannot be accepted is closed", "statement": "When the system, the memory or the address family prevents taking an accepted connection, it is closed and the caller gets nothing; otherwise the caller gets it open and non-blocking, with exactly the memory of the host it asked for.", "quantifier": "all failures of the calls involved, all address families, all choices of the caller", "why_tests_cant": "each failing system call has to be provoked; a leaked socket does not show", "anchors": ["src/session_server.c: nc_sock_accept_binds"]}
{"id": "C289", "title": "The callbacks of a client", "statement": "After any calls of the setters, each connection asks for a password, an interactive answer or a passphrase through the callback set last for that purpose and for that kind of connection (direct or Call Home), with the pointer given with it, or through the one of the library if that was NULL or none was set; the getter returns just that; the check of the host key is done in the mode set last for that kind of connection.", "quantifier": "all histories of calls of the eight setters", "why_tests_cant": "histories over six callbacks and two modes that must not influence each other", "anchors": ["src/session_client_ssh.c: nc_client_ssh_set_auth_password_clb", "src/session_client_ssh.c: nc_client_ssh_ch_set_auth_password_clb", "src/session_client_ssh.c: nc_client_ssh_set_auth_interactive_clb", "src/session_client_ssh.c: nc_client_ssh_set_auth_privkey_passphrase_clb", "src/session_client_ssh.c: nc_client_ssh_set_knownhosts_mode", "src/session_client_ssh.c: nc_client_ssh_get_auth_password_clb"]}
{"id": "C290", "title": "Growing buffers for MbedTLS end and keep nothing", "statement": "Exporting a private key, a public key or a point of an elliptic curve ends whatever MbedTLS answers and whenever memory runs out; if it fails, no memory is kept, and if it succeeds, exactly one block is, which MbedTLS was given with its true size and wrote without an error; no block is freed twice.", "quantifier": "all answers of MbedTLS for all sizes, all patterns of failing allocations", "why_tests_cant": "answers of the library and allocation failures at every size cannot be provoked by tests", "anchors": ["src/session_mbedtls.c: nc_tls_export_privkey_pem_wrap", "src/session_mbedtls.c: nc_tls_export_pubkey_pem_wrap", "src/session_mbedtls.c: nc_tls_ec_point_to_bin_wrap", "src/io.c: nc_realloc"]}
{"id": "C291", "title": "Keys of every size are exported", "statement": "With enough memory, a key or point for which MbedTLS needs any number of bytes is exported as exactly what MbedTLS writes, in a buffer that is large enough and, if larger than the first one tried, less than twice as large as needed.", "quantifier": "all sizes up to 2^62 and all texts", "why_tests_cant": "sizes between and beyond those of common keys", "anchors": ["src/session_mbedtls.c: nc_tls_export_privkey_pem_wrap", "src/session_mbedtls.c: nc_tls_export_pubkey_pem_wrap", "src/session_mbedtls.c: nc_tls_ec_point_to_bin_wrap", "src/io.c: nc_realloc"]}
{"id": "C292", "title": "What is known of the modules of a server is released entirely", "statement": "From any capabilities of the server, one entry is made for each that names a module, with its revision and all of its features; releasing them afterwards returns every block that was allocated, once, and no other, even if allocations fail in between.", "quantifier": "all lists of capabilities, all patterns of failing allocations", "why_tests_cant": "patterns of failing allocations and every shape of capabilities", "anchors": ["src/session_client.c: build_module_info_cpblts", "src/session_client.c: free_module_info", "src/io.c: nc_realloc"]}
{"id": "C293", "title": "A session has the host keys of the configuration", "statement": "Setting up a session of SSH succeeds exactly if each configured host key has private data, its own or of the first key of that name in the keystore whose public key is not in the format of X.509, and libssh takes the file made of it; libssh is then given these keys, in the order of the configuration; no file stays behind if fdopen(), strdup() and unlink() work.", "quantifier": "all configurations, keystores and outcomes of the calls on files", "why_tests_cant": "every combination of own and referenced keys, names that occur twice, and failures at any key", "anchors": ["src/session_server_ssh.c: nc_ssh_bind_add_hostkeys", "src/session_server_ssh.c: nc_server_ssh_ks_ref_get_key", "src/session_server_ssh.c: nc_server_ssh_privkey_data_to_tmp_file"]}
{"id": "C294", "title": "Cipher suites given to MbedTLS are those of the configuration", "statement": "Whatever cipher suites known to MbedTLS are created in the configuration, MbedTLS is given exactly their numbers, in order, ended by zero; those deleted are not given any more; no memory outside of the array is touched.", "quantifier": "all lists of suites, all sizes of blocks the allocator gives", "why_tests_cant": "an overflow of a few bytes is hidden by the rounding of the allocator until there are more suites", "anchors": ["src/session_mbedtls.c: nc_tls_append_cipher_suite_wrap", "src/server_config.c: nc_server_config_create_cipher_suite", "src/server_config.c: nc_server_config_del_cipher_suite"]}
{"id": "C295", "title": "MbedTLS is asked for cipher suites by their names", "statement": "For each cipher suite of the configuration MbedTLS is asked for the name it has for it: in upper case, those of TLS 1.3 with the prefix TLS1-3-.", "quantifier": "all suites", "why_tests_cant": "names of hundreds of identities", "anchors": ["src/session_mbedtls.c: nc_tls_process_cipher_suite_wrap"]}
{"id": "C296", "title": "Public keys of the configuration have the format their use asks for", "statement": "Whatever changes are applied, every public key kept for a host key or a user of SSH can be decoded and is not a SubjectPublicKeyInfo, and every one kept for the identity of a server of TLS is one; a key of the wrong kind is refused and changes nothing.", "quantifier": "all sequences of creating, replacing and deleting public keys and formats, all texts, all answers of the decoder and of the library, failing strdup()", "why_tests_cant": "a test gives a key of each kind, not a text that cannot be decoded", "anchors": ["src/server_config.c: nc_server_config_public_key", "src/server_config.c: nc_server_config_public_key_format", "src/session.c: nc_is_pk_subject_public_key_info"]}
{"id": "C297", "title": "Adding a UNIX socket endpoint survives a lack of memory", "statement": "Whatever allocations fail while UNIX socket endpoints are added and deleted, no call accesses freed memory or NULL, and an addition that fails leaves the endpoints as they were; all blocks are those of the endpoints there are.", "quantifier": "all sequences of additions and deletions, every choice of failing allocations, failing listening", "why_tests_cant": "allocations do not fail in tests", "anchors": ["src/session_server.c: nc_server_add_endpt_unix_socket_listen", "src/session_server.c: _nc_server_del_endpt_unix_socket", "src/session_server.c: nc_server_del_endpt_unix_socket", "src/io.c: nc_realloc"]}
{"id": "C298", "title": "The transport of a listening endpoint can be changed", "statement": "Whatever is configured for a listening endpoint, its transport can be changed from SSH to TLS or back: no memory is freed twice or taken for another type, only own sockets are closed, and after the removal of the endpoint nothing is left of it.", "quantifier": "all sequences of addresses and ports, both orders of the new and the old container, descriptors other parts of the process open, failing strdup() and listening", "why_tests_cant": "tests create endpoints but do not change their transport; a double free may go unnoticed", "anchors": ["src/server_config.c: nc_server_config_ssh", "src/server_config.c: nc_server_config_tls", "src/server_config.c: nc_server_config_del_ssh_opts", "src/server_config.c: nc_server_config_del_tls_opts", "src/server_config.c: nc_server_config_local_address", "src/server_config.c: nc_server_config_local_port", "src/session_server.c: nc_server_set_address_port"]}
{"id": "C299", "title": "Quoted names are read from the complaints of the parser", "statement": "The text quoted as the n-th in a complaint of libyang is read exactly, nothing is read if there are fewer, and nothing outside of the complaint is read.", "quantifier": "all texts shorter than 2^32-1 bytes, all indices below 2^31-1", "why_tests_cant": "complaints contain what clients sent, including quotation marks", "anchors": ["src/session_server.c: nc_rpc_err_get_quoted_string"]}
{"id": "C300", "title": "The node of a complaint is found without its attribute", "statement": "For every schema path of an error the node asked for is that of the path, without its last step if this is an attribute; the name of the attribute is what follows the last colon; NULL is not read.", "quantifier": "all paths", "why_tests_cant": "paths are made by libyang from what clients sent", "anchors": ["src/session_server.c: nc_rpc_err_find_lysc_node", "src/session_server.c: nc_server_prepare_rpc_err"]}
{"id": "C301", "title": "Notifications are sent only to subscribed sessions", "statement": "Whatever the threads do, a notification is written to a session only while the session has a subscription; it is one given to nc_server_notif_send(), written by one thread at a time and at most once; without any subscription, or after the end of the session, calls write nothing; what is written whole is reported as sent unless the session ends meanwhile, and nothing is reported as sent of which nothing was written.", "quantifier": "all interleavings of any number of threads calling nc_server_notif_send(), changing the number of subscriptions and ending the session", "why_tests_cant": "races between the check and the lock", "anchors": ["src/session_server.c: nc_server_notif_send", "src/session_server.c: nc_session_get_notif_status", "src/io.c: nc_write_msg_io"]}
{"id": "C302", "title": "Downloaded CRLs are read from written memory", "statement": "For every sequence of downloads, of pieces given by curl and of failures to allocate memory, the parser of CRLs is given only bytes that were downloaded, and no memory is freed twice.", "quantifier": "all lists of downloads, all lists of pieces including empty ones, memory or none at every piece", "why_tests_cant": "failed allocations and empty pieces between several distribution points", "anchors": ["src/session.c: nc_session_curl_cb", "src/session.c: nc_session_curl_fetch", "src/session.c: nc_session_tls_crl_from_cert_ext_fetch", "src/io.c: nc_realloc"]}
{"id": "C303", "title": "Writing a reply shows all of it and keeps it", "statement": "For every reply and every envelope of an RPC, the tree printed has prefix, namespace and attributes of the envelope and all nodes of the reply in their order; afterwards the reply has the nodes it had, none of them is freed, and NULL is not read.", "quantifier": "all replies with any number of nodes or errors, with or without an envelope, all failures of libyang to make or print nodes", "why_tests_cant": "the nodes are moved to another tree and back", "anchors": ["src/io.c: nc_write_msg_io", "src/messages_server.c: nc_server_reply_add_err"]}
{"id": "C304", "title": "Hashes of system users are read from memory that is there", "statement": "For all entries of the databases of users and of shadow passwords, whatever they need, and whatever allocation fails, nc_server_ssh_get_pwd_hash() ends, uses no memory that was freed or overwritten by another entry, frees its buffer, and gives the hash of the user's entry unless there is no memory.", "quantifier": "all entries of any size, all patterns of available memory", "why_tests_cant": "entries larger than the buffer, memory that is short", "anchors": ["src/session_server_ssh.c: nc_server_ssh_getpwnam", "src/session_server_ssh.c: nc_server_ssh_getspnam", "src/session_server_ssh.c: nc_server_ssh_get_pwd_hash"]}
{"id": "C305", "title": "A server with mbedTLS uses only configured TLS versions", "statement": "After every sequence of changes of the configured TLS versions that leaves some, sessions of a server built with mbedTLS can use exactly the configured versions among those that mbedTLS has.", "quantifier": "all sequences of changes, all default ranges of the library", "why_tests_cant": "combinations of versions, one of two libraries", "anchors": ["src/session_mbedtls.c: nc_server_tls_set_tls_versions_wrap", "src/session_server_tls.c: nc_accept_tls_session", "src/server_config.c: nc_server_config_tls_version"]}
{"id": "C306", "title": "CRLs that were fetched are used to verify peers", "statement": "With OpenSSL, a configuration that was set up trusts exactly the certificates of the store of certificates, knows exactly the CRLs of both stores and checks the whole chain against CRLs exactly if there is a store of CRLs. Where the certificates name distribution points of CRLs, a connection is set up only with these checks.", "quantifier": "all stores, all downloads, all failures of allocations and of the library", "why_tests_cant": "needs failing allocations, revoked certificates and stores with objects of several kinds", "anchors": ["src/session_openssl.c: nc_tls_move_crls_to_store", "src/session_openssl.c: nc_tls_setup_config_from_ctx_wrap", "src/session.c: nc_session_tls_crl_from_cert_ext_fetch"]}
{"id": "C307", "title": "Why the certificate of a peer was refused is logged", "statement": "With mbedTLS, the string for the errors of a certificate has a line for every error in the order of the library, is written only inside of its buffer, and logging it is defined whatever the errors are.", "quantifier": "all combinations of errors, all tables of texts without a bit twice", "why_tests_cant": "2^32 combinations of errors", "anchors": ["src/session_mbedtls.c: nc_tls_get_verify_err_str", "src/session_mbedtls.c: nc_server_tls_verify_cb", "src/session_client_tls.c: nc_client_tls_connect_check"]}
{"id": "C308", "title": "A server with OpenSSL uses only configured cipher suites", "statement": "After cipher suites were configured for an endpoint, its TLS sessions on a server built with OpenSSL can use only these: up to TLS 1.2 and with TLS 1.3 those of them that OpenSSL has.", "quantifier": "all lists of cipher suites, all sets of names the library has, all defaults", "why_tests_cant": "combinations of suites and versions of the library", "anchors": ["src/session_openssl.c: nc_server_tls_set_cipher_suites_wrap", "src/session_openssl.c: nc_tls_append_cipher_suite_wrap", "src/session_server_tls.c: nc_accept_tls_session"]}
{"id": "C309", "title": "A client with mbedTLS trusts the CA certificates that were set", "statement": "If loading the CA certificates of a client built with mbedTLS succeeds, the client trusts exactly the certificates of the file and of the files of the directory, and all of them could be read.", "quantifier": "all files and directories, with any certificates that cannot be read", "why_tests_cant": "all mixtures of readable and unreadable certificates", "anchors": ["src/session_mbedtls.c: nc_client_tls_load_trusted_certs_wrap", "src/session_client_tls.c: nc_client_tls_session_new"]}
