#!/usr/bin/env python3
"""Writes /verif/properties.jsonl (one JSON object per line)."""
import json, os
P = []
def p(title, statement, quantifier, why, anchors):
    P.append(dict(id="C%02d" % (len(P)+1), title=title, statement=statement,
                  quantifier=quantifier, why_tests_cant=why, anchors=anchors))

# ---------------------------------------------------------------- framing
p("Chunked framing (NETCONF 1.1) round trip",
  "A message written by one peer on a 1.1 session is received by the other peer byte for byte, whatever way the sender cut the message into writes and however the transport fragments the byte stream; the bytes that follow the message stay in the stream for the next message.",
  "every non-empty message, every split into write calls, every fragmentation of the stream, every trailing data",
  "the set of messages, splits and fragmentations is infinite; tests use a few fixed ones",
  ["src/io.c: nc_write_clb, nc_write_clb_flush, nc_write_starttag_and_msg, nc_write_endtag, nc_read_msg_io, nc_read_until, nc_read_chunk"])
p("End-of-message framing (NETCONF 1.0) round trip",
  "A message that does not contain the end-of-message marker is received byte for byte on a 1.0 session, whatever the fragmentation, and the rest of the stream stays for the next message.",
  "every message, every fragmentation, every trailing data",
  "the marker overlaps itself; the failing payloads depend on the exact tail of the message and on how the partial-match automaton restarts",
  ["src/io.c: nc_read_until, nc_read_msg_io, nc_write_endtag"])
p("Consecutive messages never bleed into each other",
  "Any list of messages sent one after another on a 1.1 session is received as exactly the same list, in the same order.",
  "every finite list of messages, every split of each, every fragmentation",
  "needs induction over the history of the stream",
  ["src/io.c: nc_read_msg_io, nc_write_msg_io"])
p("Receiving arbitrary bytes is memory safe",
  "Whatever bytes a peer sends, receiving a message never reads or writes outside the buffers allocated for it and never reads uninitialised memory.",
  "every byte stream and fragmentation",
  "the failing chunk sizes (near 2^32 and 2^64) are not in any test and need machine-word reasoning",
  ["src/io.c: nc_read_chunk, nc_read_until, nc_read_msg_io"])
p("The chunked reader accepts exactly RFC 6242 framing",
  "Every byte stream that is a well-formed RFC 6242 chunked message is decoded to the concatenation of its chunks, and a stream that is not well formed is reported as malformed and never delivered as a message.",
  "every byte stream",
  "acceptance of a language is a statement about all strings",
  ["src/io.c: nc_read_msg_io, nc_read_until"])
p("Output buffering keeps content, order and bounds",
  "For any sequence of writes, the bytes put on the wire carry exactly the written bytes in the written order, every chunk header announces exactly the number of bytes in its chunk, no chunk is empty, and the 1024 byte buffer is never overrun.",
  "every sequence of writes of every length",
  "buffer fill level depends on the whole history of writes",
  ["src/io.c: nc_write_clb, nc_write_clb_flush, nc_write_starttag_and_msg"])
p("XML escaping is faithful",
  "Text written as XML content contains no raw markup characters on the wire and un-escapes to exactly the text supplied.",
  "every byte string, at every buffer fill level",
  "the escape routine flushes in the middle of its loop; the interesting cases are at buffer boundaries for every fill level",
  ["src/io.c: nc_write_xmlclb, nc_write_clb"])
# ---------------------------------------------------------------- handshake
p("Protocol version agreement",
  "After the capability exchange both peers use the same protocol version: 1.1 when both advertised base:1.1, 1.0 when both advertised base:1.0 but not both base:1.1, otherwise the session is not established.",
  "every pair of capability lists in every order",
  "capability lists are unbounded and order matters",
  ["src/session.c: parse_cpblts, nc_client_recv_hello_io, nc_server_recv_hello_io"])
p("Session id rules of the hello exchange",
  "A client establishes a session only when the server hello carries a session-id, and then uses that id; a server establishes a session only when the client hello carries none; every other hello leaves the session unestablished.",
  "every hello content",
  "ranges over all hello documents and the order of their children",
  ["src/session.c: nc_client_recv_hello_io, nc_server_recv_hello_io, nc_handshake_io"])
p("A session is handed out only when running",
  "Every accept or connect call returns a session to the application only after a successful handshake, with running status; on any failure no session is handed out.",
  "every outcome of the transport and of the hello exchange",
  "failure paths at each step are hard to provoke in tests",
  ["src/session_server.c: nc_accept_inout, nc_accept; src/session.c: nc_handshake_io"])
p("Server session ids are never reused while unambiguous",
  "Any two sessions accepted by one server have different ids, as long as fewer than 2^32 sessions have been accepted; no id is zero.",
  "every history of accept calls on any transport, any interleaving",
  "uniqueness over all histories; wrap-around takes 2^32 accepts",
  ["src/session_server.c: nc_accept_inout, nc_accept, server_opts.new_session_id"])
p("Capability list contents",
  "The capability list a server advertises contains base:1.0 and base:1.1 and every user capability, and contains with-defaults exactly when a basic mode is configured, listing exactly the configured additional modes.",
  "every server configuration and module set",
  "combinatorial over settings and modules",
  ["src/session.c: nc_server_get_cpblts_version, add_cpblt; src/session_server.c: nc_server_set_capab_withdefaults, nc_server_set_capability"])
# ---------------------------------------------------------------- pollsession
p("Poll session lock queue is mutual exclusion in FIFO order",
  "At any time at most one thread holds a poll session structure, waiting threads obtain it in the order in which they queued unless they time out, and a thread that timed out never blocks the others.",
  "every interleaving of any number of threads locking, timing out and unlocking",
  "schedules are unbounded",
  ["src/session_server.c: nc_ps_queue_add_id, nc_ps_queue_remove_id, nc_ps_lock, nc_ps_unlock"])
p("Poll session structure behaves as a collection of sessions",
  "After any sequence of additions and removals, the structure holds exactly the sessions added and not yet removed, each once, and count/get/find agree with that.",
  "every sequence of add, delete and clear calls, every session",
  "removal reorders the array; correctness depends on the full history",
  ["src/session_server.c: nc_ps_add_session, _nc_ps_del_session, nc_ps_del_session, nc_ps_get_session, nc_ps_find_session, nc_ps_session_count, nc_ps_clear"])
p("Polling is fair",
  "One polling round examines every session of the structure at most once, examines all of them unless it stops on an event, and resumes after the session that had the last event, so that a session with pending data is served within as many calls as there are sessions, however busy the others are.",
  "every number of sessions and every pattern of readiness over time",
  "starvation is a property of infinite runs",
  ["src/session_server.c: nc_ps_poll, nc_ps_poll_sess"])
p("Every received RPC gets exactly one reply carrying its message-id",
  "For every received well-formed RPC the server sends exactly one rpc-reply with the message-id attribute of the request, whatever the callback returns; requests without message-id get an error reply.",
  "every request and every callback result",
  "ranges over all requests and all callback behaviours",
  ["src/session_server.c: nc_server_recv_rpc_io, nc_server_send_reply_io, nc_server_poll, nc_ps_poll"])
p("Idle timeout",
  "A session without notification subscription is terminated for inactivity only when no RPC arrived for at least the configured idle timeout, and is terminated by the next poll after that; with idle timeout 0 it is never terminated for inactivity.",
  "every clock history, poll timeout and RPC arrival pattern",
  "depends on wall-clock time and poll timeout arguments",
  ["src/session_server.c: nc_ps_poll_sess, nc_ps_poll"])
p("Termination reason is the true one",
  "A terminated session reports closed only if the client sent close-session, killed only if another session killed it, dropped only if the transport failed, timeout only on inactivity; and poll reports an erroneous termination exactly for the reasons other than closed and killed.",
  "every termination history",
  "the reporting code combines reasons bitwise; each combination must be examined",
  ["src/session_server.c: nc_ps_poll, nc_ps_poll_sess, nc_clb_default_close_session, nc_session_set_term_reason; src/netconf.h: NC_SESSION_TERM_REASON"])
p("RPC lock is mutual exclusion",
  "At any time at most one thread processes an RPC of a session; a thread that waits for the lock and times out leaves the lock state unchanged; unlock by a thread not holding it is refused.",
  "every interleaving of lock, timed lock and unlock by any number of threads",
  "schedules are unbounded",
  ["src/session.c: nc_session_rpc_lock, nc_session_rpc_unlock"])
p("Malformed RPC handling keeps the session in a defined state",
  "A message that is not a valid RPC makes the server either answer with a malformed-message error and go on, or terminate the session as defined for the protocol version; it never processes an absent RPC.",
  "every outcome of reading and parsing a message",
  "error paths of parsing interact with framing errors",
  ["src/session_server.c: nc_server_recv_rpc_io, nc_ps_poll"])
# ---------------------------------------------------------------- client
p("Client message ids are unique and increasing",
  "Successive RPCs sent on a session carry strictly increasing message ids, the id reported to the caller is the one put on the wire, and a failed send consumes no id.",
  "every sequence of sends with arbitrary failures",
  "histories are unbounded",
  ["src/session_client.c: nc_send_rpc, nc_send_msg_io"])
p("A reply is accepted only for its request",
  "Receiving the reply of a request yields the reply only if the reply carries the same message-id; a missing or different id is reported as such and never delivered as the reply.",
  "every reply document and every requested id",
  "ranges over all attribute values",
  ["src/session_client.c: recv_reply_check_msgid, recv_reply, nc_recv_reply"])
p("No message is lost, duplicated or reordered between receivers",
  "For any interleaving of receiving replies and receiving notifications on a client session, the replies delivered are a prefix of the replies in wire order, and the notifications delivered are a prefix of the notifications in wire order, and everything that arrived is either delivered or still buffered.",
  "every sequence of arrivals and of receive calls",
  "interleavings are unbounded",
  ["src/session_client.c: recv_msg, recv_reply, recv_notif"])
p("Message classification",
  "A received message is treated as a reply exactly when its root element is rpc-reply, as a notification exactly when its root element is notification, whatever whitespace, comments and XML declaration precede it.",
  "every message text",
  "statement about all strings",
  ["src/session_client.c: get_msg_type"])
p("A hostile server cannot crash the client receive path",
  "Whatever the result of reading a message, receiving on a client session returns a defined result.",
  "every read result including malformed framing",
  "the malformed-framing result is not produced by any test server",
  ["src/session_client.c: recv_msg; src/io.c: nc_read_msg_io"])
p("Capability lookup",
  "Asking whether a session has a capability answers with a capability of the peer that equals the one asked for, ignoring parameters, and answers no when there is none.",
  "every capability list and every query",
  "prefix matching is exact on typical data only",
  ["src/session_client.c: nc_session_cpblt"])
p("Removing Call Home listening addresses",
  "After removing Call Home binds by address and port, no bind matching the given address and port is left and every other bind is kept.",
  "every list of binds and every pattern",
  "adjacent matches and order matter",
  ["src/session_client.c: nc_client_ch_del_bind, nc_client_ch_add_bind_listen"])
p("Newest module revision is chosen",
  "When a module is requested without a revision, the newest revision announced by the server is the one retrieved.",
  "every list of module revisions in any order",
  "needs every order of announcements",
  ["src/session_client.c: retrieve_module_data_imp"])
# ---------------------------------------------------------------- SSH
p("SSH authentication establishes one fixed identity",
  "When an SSH client becomes authenticated, the session user name is a configured user, all successful authentication steps were for that user name, and the name never changes afterwards; an unconfigured user is never authenticated.",
  "every sequence of authentication messages",
  "attack sequences are unbounded",
  ["src/session_server_ssh.c: nc_server_ssh_auth, nc_session_ssh_msg"])
p("SSH user must pass all configured methods",
  "A client is authenticated only after it succeeded in every authentication method configured for the user.",
  "every sequence of authentication messages and every set of configured methods",
  "attack sequences are unbounded",
  ["src/session_server_ssh.c: nc_server_ssh_auth"])
p("No NETCONF channel before SSH authentication",
  "No channel is opened and no netconf subsystem is granted on an SSH connection before the client is authenticated.",
  "every sequence of SSH messages",
  "attack sequences are unbounded",
  ["src/session_server_ssh.c: nc_session_ssh_msg, nc_server_ssh_channel_open, nc_server_ssh_channel_subsystem"])
p("Password comparison",
  "A password is accepted exactly when it matches the stored value: equal text for cleartext-marked values, equal hash for hashed values, empty only for an empty stored value.",
  "every stored value and every received password",
  "ranges over all strings",
  ["src/session_server_ssh.c: nc_server_ssh_compare_password"])
p("Public key acceptance",
  "A public key is accepted exactly when it equals one of the keys configured for the user, and access is granted only with a signature.",
  "every list of configured keys, including unparsable ones, and every presented key",
  "lists and positions of bad keys are unbounded",
  ["src/session_server_ssh.c: nc_server_ssh_auth_pubkey_compare_key, nc_server_ssh_auth_pubkey"])
p("Authorized-keys path expansion",
  "The path of a user's key file is the configured format with each %h, %u, %U, %% replaced by home, user name, uid and percent sign, everything else unchanged; a format with any other token is rejected.",
  "every format string and every user",
  "statement about all strings; buffer growth by 16 bytes must never overrun",
  ["src/session_server_ssh.c: nc_server_ssh_get_system_keys_path, nc_server_ssh_str_append"])
p("SSH sessions sharing a connection form one ring",
  "The NETCONF sessions multiplexed over one SSH connection always form a single ring containing exactly the sessions created on that connection and not yet freed; the connection is released exactly when the last one is freed.",
  "every sequence of channel openings and session frees",
  "histories are unbounded",
  ["src/session_server_ssh.c: nc_server_ssh_channel_subsystem; src/session.c: nc_session_free_transport"])
# ---------------------------------------------------------------- TLS
p("Certificate-to-name mapping",
  "The user name of a TLS client is produced by the first mapping entry, in the configured order, whose fingerprint matches a certificate of the client's chain and whose map type yields a name for it; without such entry the client is refused.",
  "every entry list, chain and referenced endpoint",
  "combinatorial over entries and chains",
  ["src/session_server_tls.c: nc_server_tls_cert_to_name, _nc_server_tls_cert_to_name, nc_server_tls_get_username"])
p("Common-name mapping yields the common name",
  "With the common-name map type the user name is the value of the CN attribute of the certificate subject.",
  "every subject name",
  "attribute values chosen by the certificate requester are arbitrary strings",
  ["src/session_server_tls.c: nc_server_tls_get_username"])
p("TLS client must be trusted",
  "A TLS client is accepted only if its certificate chains to a configured certificate authority with no verification error, or equals a configured end-entity certificate.",
  "every sequence of certificate verification callbacks",
  "verification error combinations are unbounded",
  ["src/session_openssl.c: nc_server_tls_verify_cb; src/session_server_tls.c: nc_server_tls_verify_cert"])
p("Fingerprint text is faithful",
  "The textual fingerprint of a digest fits its buffer exactly and distinct digests have distinct fingerprints, so comparing fingerprints text equals comparing digests.",
  "every digest of every length",
  "statement about all byte strings",
  ["src/session_server_tls.c: nc_server_tls_digest_to_hex, nc_server_tls_cert_to_name"])
# ---------------------------------------------------------------- call home
p("Call Home endpoint rotation",
  "A Call Home client tries each endpoint the configured number of times before moving to the next, visits the endpoints cyclically in configured order, and after a loss of connection starts again according to the configured start policy.",
  "every number of endpoints and pattern of failures and reconfigurations",
  "histories are unbounded",
  ["src/session_server.c: nc_ch_client_thread"])
p("Periodic Call Home is aligned to the anchor",
  "With an anchor time configured, the next periodic connection is made at the next moment that is a whole number of periods from the anchor.",
  "every time, anchor and period",
  "clock dependent",
  ["src/session_server.c: nc_ch_client_thread"])
# ---------------------------------------------------------------- cert exp
p("Certificate expiration notification schedule",
  "Each notification time computed for a certificate is in the future, lies on the schedule given by the configured anchors and periods, and repeated computation reaches the expiration, so that every scheduled notification is sent; the thread always wakes up at the earliest scheduled time.",
  "every expiration time, interval table and current time",
  "calendar arithmetic over all times",
  ["src/session_server.c: nc_server_notif_cert_exp_next_notif_time_get, nc_server_notif_cert_exp_first_notif_time_get, nc_server_notif_cert_exp_wakeup_time_get"])
# ---------------------------------------------------------------- misc
p("Endpoint and listening socket tables stay in step",
  "After any sequence of endpoint additions and removals, the listening socket at a position belongs to the endpoint at the same position, endpoint names are unique, and an endpoint whose addition failed is absent.",
  "every sequence of additions with failures and removals",
  "histories are unbounded",
  ["src/session_server.c: nc_server_add_endpt_unix_socket_listen, _nc_server_del_endpt_unix_socket, nc_server_set_address_port, nc_accept"])
p("Deadline arithmetic",
  "The remaining time computed from a deadline is the true remaining time, and a blocking call with a timeout returns within it.",
  "every pair of time stamps and every signal interruption pattern",
  "clock and signals are not controllable in tests",
  ["src/session.c: nc_timeouttime_get, nc_timeouttime_cur_diff, nc_poll"])
p("Error replies follow RFC 6241",
  "Every error built by the error constructor carries an error-type that RFC 6241 appendix A permits for its error-tag, and reading tag and type back gives what was put in.",
  "every tag and every type argument",
  "all tag/type combinations, including invalid ones",
  ["src/messages_server.c: nc_err, nc_err_get_tag, nc_err_get_type, nc_err_tag2str, nc_err_str2tag"])
p("Notification subscription counter",
  "The subscription status of a session is on exactly when more increments than effective decrements happened, and a decrement at zero leaves it at zero.",
  "every sequence of increments and decrements",
  "histories are unbounded",
  ["src/session_server.c: nc_session_inc_notif_status, nc_session_dec_notif_status, nc_session_get_notif_status"])
p("Module information from capabilities",
  "The module list derived from a peer's capabilities contains exactly the modules announced, each with the announced revision and features.",
  "every capability list",
  "statement about all strings",
  ["src/session_client.c: build_module_info_cpblts"])
p("Authorized keys file parsing",
  "The keys accepted from an authorized_keys file are exactly those on its non-empty, non-comment lines in order, whatever other lines surround them.",
  "every file content",
  "statement about all files",
  ["src/session_server_ssh.c: nc_server_ssh_read_authorized_keys_file"])
p("No hello message crashes the receiver",
  "Receiving any hello message, of whatever elements, never leads to an invalid memory access or an abort of the process, on either side.",
  "every parsed message, both sides",
  "the bad messages are unusual trees nobody writes a test for",
  ["src/session.c: nc_client_recv_hello_io", "src/session.c: nc_server_recv_hello_io", "src/session_client.c: nc_ctx_check_and_fill"])
p("The module list of a client is well formed",
  "The list of server modules the client builds from yang-library data holds one entry per module of the data, ends after the last one, and using it reads only memory that was written.",
  "every yang-library content, every set of capabilities",
  "depends on memory content after a reallocation; a test usually sees zeros",
  ["src/session_client.c: build_module_info_yl", "src/session_client.c: nc_ctx_fill"])
p("Names come from the client's certificate",
  "A TLS user name that a mapping entry takes from a certificate (common name, subject alternative name) is taken from the certificate of the client, not from another certificate of its chain.",
  "every chain, entry list and TLS library",
  "needs chains in which several certificates have names, for every order of verification callbacks",
  ["src/session_server_tls.c: nc_server_tls_cert_to_name", "src/session_mbedtls.c: nc_server_tls_append_cert_to_chain"])
p("Call Home idle timeout",
  "A Call Home session is terminated for idleness exactly if its connection is periodic with a non-zero idle timeout, it has no subscription and its last RPC is at least the timeout ago; the thread stops watching a session only when the session ended, the client was removed or waiting failed.",
  "every sequence of wake-ups, reconfigurations and times",
  "timing and concurrency dependent",
  ["src/session_server.c: nc_server_ch_client_thread_session_cond_wait"])
p("Stopping the certificate expiration notifications",
  "After nc_server_notif_cert_expiration_thread_stop() the notification thread ends without waiting for the next notification; after a change of the configuration it uses the new certificates and intervals, and never intervals that were freed; there is at most one such thread, and a start that failed can be repeated.",
  "every interleaving of the notification thread with starts, stops and configuration changes",
  "the windows are a few instructions wide",
  ["src/session_server.c: nc_server_notif_cert_exp_thread, nc_server_notif_cert_expiration_thread_start, nc_server_notif_cert_expiration_thread_stop", "src/server_config.c: nc_server_config_ln2_netconf_server, nc_server_config_setup_diff"])
p("Removing all endpoints at once",
  "Removing the listen container (which every nc_server_config_setup_data() does first) removes every SSH and TLS endpoint, keeps the UNIX socket endpoints of the application, and frees every block and closes every socket exactly once.",
  "every set of endpoints and references between them, in every order",
  "depends on the order of the endpoints and on references between them; tests use one or two endpoints",
  ["src/server_config.c: nc_server_config_listen, nc_server_config_del_endpt_ssh, nc_server_config_del_endpt_tls, nc_server_config_del_endpt_references, nc_server_config_setup_data"])
p("Endpoint references",
  "Applying a configuration always comes to an end. If it succeeds, every endpoint reference leads to another existing endpoint with the same transport (SSH or TLS), following references from any endpoint ends, and what authentication follows is the name of a present endpoint.",
  "every set of endpoints and references, every sequence of configuration changes",
  "all shapes of reference graphs in all orders cannot be enumerated",
  ["src/server_config.c: nc_server_config_check_endpt_references, nc_server_config_check_endpt_reference_cycle, nc_server_config_endpoint_reference", "src/session_server.c: nc_server_get_referenced_endpt"])
p("No listening endpoint is starved",
  "With n listening endpoints, a connection waiting at one of them is accepted within 2n-1 calls of nc_accept() however many connections arrive at the others; connections at one endpoint are accepted in order; nc_accept() times out only if no connection waits and never waits longer than its timeout.",
  "every sequence of arrivals, calls and reconfigurations",
  "depends on the order of arrivals and on the remembered events",
  ["src/session_server.c: nc_sock_accept_binds, nc_accept, nc_server_set_address_port"])
p("What is set in an error is what it carries",
  "After any sequence of nc_err_set_app_tag(), nc_err_set_path(), nc_err_set_msg(), nc_err_set_sid(), nc_err_add_bad_attr/elem/ns() and nc_err_add_info_other() on an error made by nc_err(), the getters return what was set last (the message of the tag if none was set), the type, tag and severity are as built, no element occurs twice, and error-info holds everything that was added, in order, with one session-id, the last one set.",
  "every error and every sequence of calls",
  "the sequences are unboundedly many; tests set each part once",
  ["src/messages_server.c: nc_err_set_app_tag, nc_err_set_path, nc_err_set_msg, nc_err_set_sid, nc_err_add_bad_attr, nc_err_add_bad_elem, nc_err_add_bad_ns, nc_err_add_info_other"])
p("Errors conform to the schema",
  "The children of every rpc-error sent are in the sequence the XML schema of RFC 6241 (appendix B) demands, and error-message carries the language it was set with.",
  "every error and every sequence of setting calls",
  "tests compare single errors with what the library prints, not with the schema",
  ["src/messages_server.c: nc_err, nc_err_set_app_tag, nc_err_set_path, nc_err_set_msg"])
p("At most one answer, and only to what was read",
  "From the creation of a pollsession structure on, in every order of additions, removals, polls and changes by the application: a call of nc_ps_poll() sends at most one reply, only on the session it returns, and only as the answer to the message it read there (with the attributes of the request if there was one); the application's callback is asked only if a request with a message-id was read.",
  "every history of calls, every behaviour of transports, callbacks and locks",
  "the histories and behaviours of callbacks are unboundedly many",
  ["src/session_server.c: nc_ps_poll, nc_ps_add_session, nc_ps_del_session, nc_ps_clear, nc_server_recv_rpc_io, nc_server_send_reply_io"])
p("No termination reason without its cause",
  "From the creation of a pollsession structure on, in every order of additions, removals, polls and changes by the application: a session that ended has a reason that the application set, or that a call of nc_ps_poll() set which met its cause: close-session from that session, a closed or failed transport of that session, inactivity of that session reckoned at the end of the call's own timeout (when exactly it is reckoned is C17). Killed is only ever set by the application.",
  "every history of calls, every behaviour of transports, callbacks and locks",
  "tests see single histories; the claim is about all causes there can be",
  ["src/session_server.c: nc_ps_poll, nc_ps_poll_sess, nc_ps_poll_session_io, nc_server_recv_rpc_io, nc_server_send_reply_io", "src/session.c: nc_session_set_term_reason, nc_session_set_status"])
p("No idle timeout, no end for inactivity",
  "With idle timeout 0, in every history of a pollsession structure, no session ever ends for inactivity unless the application says so.",
  "every history of calls and every time",
  "absence over unboundedly long histories",
  ["src/session_server.c: nc_ps_poll, nc_ps_poll_session_io, nc_server_set_idle_timeout"])
p("A server hands out only running sessions",
  "A call of nc_accept(), nc_accept_inout(), nc_session_accept_ssh_channel() or nc_ps_accept_ssh_channel() gives the application a session exactly if it returns NC_MSG_HELLO, and then the session is running and has the id and version of a completed hello exchange.",
  "every transport behaviour and every message of the peer",
  "the failures can happen at any point of the exchange",
  ["src/session_server.c: nc_accept, nc_accept_inout, nc_session_accept_ssh_channel, nc_ps_accept_ssh_channel", "src/session.c: nc_handshake_io"])
p("A connection is served with the options of its endpoint",
  "After any sequence of endpoint additions, removals, address and port changes, the endpoint whose options nc_accept() uses for a connection is the one whose listening socket the connection came to.",
  "every sequence of operations and every set of waiting connections",
  "two arrays are changed by different functions; agreement at every position after every sequence is not testable",
  ["src/session_server.c: nc_accept, nc_sock_accept_binds, nc_server_set_address_port", "src/server_config.c: nc_server_config_create_endpoint, nc_server_config_del_endpt_ssh, nc_server_config_del_endpt_tls"])
p("References of an accepted configuration end",
  "If the check of endpoint references succeeds, every endpoint reference leads to another existing endpoint with the same transport (SSH or TLS), no endpoint refers to itself over any number of steps, and following references from any endpoint, listening or Call Home, comes to one without a reference.",
  "every set of endpoints and references",
  "all shapes of reference graphs cannot be enumerated",
  ["src/server_config.c: nc_server_config_check_endpt_references, nc_server_config_check_endpt_reference_cycle", "src/session_server.c: nc_server_get_referenced_endpt"])
p("Removing Call Home addresses touches no others",
  "nc_client_ch_del_bind() removes only binds matching the arguments, fails exactly if there is none and then changes nothing; calling it until it fails removes all matching binds and keeps all others.",
  "every list of binds and every combination of arguments",
  "binds are reordered by removals; all lists cannot be enumerated",
  ["src/session_client.c: nc_client_ch_del_bind"])
p("The public keys accepted for a user are those configured",
  "After any sequence of configuration changes, authentication of an SSH user with a public key uses exactly what is then configured for the user: the keys in the configuration, the keys of the named truststore bag, the keys of the system, or nothing if nothing is configured; in particular what was removed is no longer accepted, and an attempt never dereferences NULL.",
  "every sequence of changes of one user's public-keys, every order in which the nodes of a change are visited",
  "the meaning of a union depends on the whole history of changes; histories are unboundedly many",
  ["src/server_config.c: nc_server_config_public_key, nc_server_config_truststore_reference, nc_server_config_use_system_keys, nc_server_config_public_keys", "src/session_server_ssh.c: nc_server_ssh_auth_pubkey, nc_server_ssh_ts_ref_get_keys", "src/session_p.h: struct nc_auth_client"])
p("Key and certificate configuration frees every block once",
  "No sequence of configuration changes of a user's keys, of trusted certificates or of host keys frees memory twice, frees something that is not a heap block, or reads memory as something it is not; and when the configuration is removed nothing of it is left allocated.",
  "every sequence of changes, every order in which the nodes of a change are visited",
  "needs all histories; a test sees one history and one allocator",
  ["src/server_config.c: nc_server_config_realloc, nc_server_config_del_auth_client_pubkey, nc_server_config_del_auth_client_pubkeys, nc_server_config_del_cert, nc_server_config_del_certs, nc_server_config_truststore_reference, nc_server_config_del_hostkey"])
p("The client certificates trusted are those configured",
  "After any sequence of configuration changes the CA certificates and the end-entity certificates used to verify TLS clients are exactly those configured: in the configuration, those of the named truststore bag, or none.",
  "every sequence of changes, every order in which the nodes of a change are visited",
  "the meaning of a union depends on the whole history of changes",
  ["src/server_config.c: nc_server_config_certificate, nc_server_config_truststore_reference, nc_server_config_del_certs", "src/session_server_tls.c: nc_server_tls_load_trusted_certs, nc_server_tls_verify_peer_cert"])
p("The SSH host key used is the one configured",
  "Any changes of a host key, between texts in the configuration and references to the keystore, in any order of the nodes, are free of double frees and invalid frees, as is the removal of the host key after them; and after any history of configurations the private key given to the SSH library is the configured one, or the key with the configured name.",
  "every sequence of configurations and every order of the nodes in each change",
  "orders and histories are unboundedly many",
  ["src/server_config.c: nc_server_config_public_key, nc_server_config_cleartext_private_key, nc_server_config_keystore_reference, nc_server_config_del_hostkey", "src/session_server_ssh.c: nc_ssh_bind_add_hostkeys"])
p("The TLS server identity used is the one configured",
  "Any changes of the identity of a TLS server, between a key and certificate in the configuration and references to the keystore, are free of memory errors, and the key and certificate used are those configured.",
  "every sequence of changes, every order in which the nodes of a change are visited",
  "the fields overlap in a union with different layouts; whether a stale field is read as a pointer depends on the history",
  ["src/server_config.c: nc_server_config_public_key_format, nc_server_config_public_key, nc_server_config_asymmetric_key, nc_server_config_certificate, nc_server_config_del_tls_opts", "src/session_server_tls.c: nc_server_tls_load_server_cert_key", "src/session_p.h: struct nc_server_tls_opts"])
p("Keys in the configuration are exactly those accepted",
  "As long as the public keys of a user are only given in the configuration itself (at most 65535 at a time), after any sequence of additions, changes and removals of keys, or of all of them at once, exactly the keys then configured, with their data, are compared with a key of a client; with none configured the method is not offered.",
  "every sequence of changes of keys",
  "removal moves entries in the array; agreement after all sequences is not testable",
  ["src/server_config.c: nc_server_config_public_key, nc_server_config_get_pubkey, nc_server_config_del_auth_client_pubkey, nc_server_config_del_auth_client_pubkeys, nc_server_config_realloc", "src/session_server_ssh.c: nc_server_ssh_auth_pubkey"])
p("A request is sent as it was asked for or not at all",
  "Whatever operation a client asks for with a constructor of messages_client.h and nc_send_rpc(), the tree handed to the transport, read by the YANG modules of the operation, says exactly what the arguments say: the datastores, URLs or contents, the filter and its kind, each option, number, time and list. If libyang refuses any part, or a module is missing, nothing is sent.",
  "all 23 operations, all values of all arguments, every set of modules, every way libyang refuses nodes",
  "arguments and refusals by libyang are unboundedly many; a test server accepts what it gets",
  ["src/session_client.c: nc_send_rpc, nc_wd2str", "src/messages_client.c: nc_rpc_*"])
p("A constructor lets no malformed filter, content or id through",
  "A request made by a constructor of messages_client.h is the one of its arguments; its filter is empty, XML, a path or begins with a letter, its content is empty, XML or begins with a letter, and the session or subscription id, or the period of a new periodic subscription, is not zero.",
  "all constructors, all arguments",
  "all texts and all 23 constructors",
  ["src/messages_client.c: nc_rpc_*"])
p("A request other than get-data is sent as it was asked for or not at all",
  "For every operation but get-data the tree handed to the transport says exactly what the arguments say, different requests are never sent as the same tree, a request that libyang accepts is sent, and no number overflows the buffer it is printed to.",
  "22 operations, all values of all arguments, every set of modules, every way libyang refuses nodes",
  "arguments and refusals by libyang are unboundedly many",
  ["src/session_client.c: nc_send_rpc"])

p("The SSH algorithms of an endpoint are those configured",
  "After any changes of the configuration a server offers, for host keys, key exchange, and encryption and MACs in both directions, exactly the configured algorithms by the names libssh has for them, in the configured order; a change that is refused changes nothing and no change reads outside of the text.",
  "all algorithm names, all lists, every sequence of additions, insertions, moves and removals, both directions of a connection",
  "which algorithm is removed from which place of which list has unboundedly many cases; tests load one list",
  ["src/server_config.c: nc_server_config_transport_params, nc_server_config_delete_substring", "src/session_server_ssh.c: nc_accept_ssh_session"])
p("The cipher suites of an endpoint are those configured",
  "After any changes of the configuration a TLS endpoint has exactly the configured cipher suites in the configured order.",
  "all names, all lists, every sequence of additions and removals",
  "tests load one list and never remove from it",
  ["src/server_config.c: nc_server_config_cipher_suite", "src/session_openssl.c: nc_tls_append_cipher_suite_wrap"])
p("A TLS version is accepted if and only if it is configured",
  "After any sequence of additions and removals of TLS versions an endpoint accepts connections of exactly the versions that are configured.",
  "every sequence of changes, all versions, OpenSSL and mbedTLS",
  "all sequences of changes; tests connect with one version",
  ["src/server_config.c: nc_server_config_tls_version", "src/session_openssl.c: nc_server_tls_set_tls_versions_wrap", "src/session_mbedtls.c: nc_server_tls_set_tls_versions_wrap"])
p("A certificate is mapped by the configured cert-to-name entries",
  "After any changes of the configuration the entries consulted for the user name of a TLS client are those configured, each once, with its map type, name and fingerprint, in the order of their ids.",
  "every sequence of creations, removals and changes of entries, all ids",
  "orders of creation and ids are unboundedly many; tests have one or two entries in order",
  ["src/server_config.c: nc_server_config_cert_to_name, nc_server_config_create_cert_to_name, nc_server_config_fingerprint"])
p("A newly configured list of algorithms, cipher suites or TLS versions is taken over as it is",
  "Algorithms and cipher suites of a new configuration become one text with every configured name, as the libraries name it, once per entry, in order, separated by the separator of the library; the texts are what libssh is given for host keys, key exchange and what the server sends. The versions noted for an endpoint are those configured after any changes.",
  "all names, lists of any length, every sequence of changes of versions",
  "lists are unboundedly long",
  ["src/server_config.c: nc_server_config_transport_params, nc_server_config_cipher_suite, nc_server_config_tls_version"])
p("Entries of cert-to-name that are added and removed are consulted in the order of their ids",
  "Starting without entries, every sequence of valid additions and removals of entries and changes of their fingerprints succeeds and leaves exactly the configured entries, strictly ordered by id.",
  "every sequence of changes but changes of a map type or a name, all ids, names, map types and fingerprints",
  "orders of creation and ids are unboundedly many",
  ["src/server_config.c: nc_server_config_create_cert_to_name, nc_server_config_cert_to_name, nc_server_config_fingerprint"])

p("The messages of the library arrive as they were made",
  "Every request, reply, notification and hello that nc_write_msg_io() reports as sent is what nc_read_msg_io() of the peer returns, with exactly the envelope of its kind, on 1.0 and 1.1 sessions, and so is every sequence of messages, in order and with nothing in between or left over. The client takes a reply for a reply and a notification for a notification. Printed data have no NUL and, on a 1.0 session, not the end-of-message marker; messages have less than 2147483000 bytes.",
  "all messages of all kinds, both versions, every sequence, every behaviour of the transport without write errors, every fragmentation",
  "messages, chunk boundaries and fragmentations are unboundedly many",
  ["src/io.c: nc_write_msg_io, nc_read_msg_io", "src/session_client.c: get_msg_type"])
p("A message is sent if the transport keeps taking bytes",
  "If a transport does not fail and takes at least one byte again and again, in whatever portions, after whatever waiting and interruptions, nc_write_msg_io() returns success after finitely many attempts and has written exactly the framed message.",
  "all messages of less than 2^32-1024 bytes, all infinite behaviours of a transport",
  "termination for all infinite behaviours of a transport",
  ["src/io.c: nc_write, nc_write_clb, nc_write_msg_io"])
p("Nothing an application passes ends a 1.0 message early",
  "On a 1.0 session no capability, event time or other text of an application, and nothing at the seams of a message, makes the end-of-message marker appear inside of a message.",
  "all texts",
  "all texts; tests use plain ones",
  ["src/io.c: nc_write_msg_io", "src/messages_server.c: nc_server_notif_new"])

p("An SSH client is connected only if the server let it in",
  "The authentication of an SSH client succeeds if and only if the server answered one of its authentication requests (none, password, keyboard-interactive, a signature by a key) with success.",
  "all servers and their answers, all preferences, any number of keys and rounds of prompts",
  "the product of answers, keys and methods is unbounded; the interesting cases need failing files and servers",
  ["src/session_client_ssh.c: connect_ssh_session"])
p("No credentials for a host whose key was not accepted",
  "An SSH client sends nothing that authenticates its user before the key of the server was accepted; a key is accepted exactly as the mode of known hosts says (a changed one only in the modes accept and skip, an unknown one in the mode ask only after the answer yes); an entry is added to the known hosts only for an accepted key without one, never in the modes strict and skip.",
  "all modes, states of the known hosts, texts typed by the user, answers of the server",
  "all texts typed and all executions",
  ["src/session_client_ssh.c: nc_client_ssh_auth_hostkey_check, connect_ssh_session"])
p("SSH authentication methods are tried in the order of preference",
  "An SSH client tries each authentication method at most once, only one that the server offers and that is not disabled, and only after every offered method with a higher preference.",
  "all preferences, offers, answers",
  "preferences are numbers, answers are unboundedly many",
  ["src/session_client_ssh.c: connect_ssh_session, nc_client_ssh_set_auth_pref"])
p("All enabled SSH authentication methods are tried before giving up",
  "If the server answers all requests and the user all prompts, an SSH client either gets in or has tried every offered method that is not disabled; only negative preferences disable a method.",
  "all preferences, offers, answers",
  "preferences are numbers, answers are unboundedly many",
  ["src/session_client_ssh.c: connect_ssh_session"])
p("SSH key pairs of a client are a set with a passphrase for encrypted keys",
  "A successful nc_client_ssh_add_keypair() adds exactly the real paths, a failed one nothing; a pair cannot be added twice; nc_client_ssh_del_keypair() removes exactly the pair at the index and fails for an index outside; the passphrase is asked for if the private key is encrypted.",
  "all sequences of calls, all paths and contents of files",
  "all contents of files and all indices",
  ["src/session_client_ssh.c: _nc_client_ssh_add_keypair, _nc_client_ssh_del_keypair, _nc_client_ssh_get_keypair"])
p("A failed further channel leaves the other sessions of a connection usable",
  "When nc_connect_ssh_channel() returns, with a session or without, the I/O lock shared by the sessions of the connection is free.",
  "every step of the call succeeding or failing",
  "needs a server that refuses channels",
  ["src/session_client_ssh.c: nc_connect_ssh_channel"])

p("Revocation lists are used as served, whatever other distribution points do",
  "All CRLs that can be downloaded from the distribution points of the certificates are used exactly as served; a distribution point that fails affects neither the others nor the connection, wherever it is in the order; nothing is used that was not served.",
  "all lists of distribution points, all data, all ways a download can fail",
  "needs arbitrary failing servers; data and their number are unbounded",
  ["src/session.c: nc_session_tls_crl_from_cert_ext_fetch, nc_session_curl_cb", "src/session_mbedtls.c: nc_server_tls_add_crl_to_store_wrap"])
p("An attempt at a TLS connection releases all it took",
  "Whatever step of an attempt to set up a TLS connection fails, on a client or a server, each object made is freed exactly once and the socket is closed exactly once; if it succeeds, freeing the session does so.",
  "every step succeeding or failing, any number of steps of a handshake, both TLS libraries",
  "needs failures of every call, leaks and double closes are invisible to most tests",
  ["src/session_client_tls.c: nc_client_tls_session_new, nc_connect_tls, nc_accept_callhome_tls_sock", "src/session_server_tls.c: nc_accept_tls_session", "src/session.c: nc_session_free_transport", "src/session_openssl.c: nc_tls_setup_config_from_ctx_wrap", "src/session_mbedtls.c: nc_tls_init_ctx_wrap"])
p("A TLS client verifies whom it talks to",
  "Every step of a TLS handshake of a client is made with the trusted certificates loaded, the verification of the peer on and the expected name set: the host given to nc_connect_tls(), localhost if none, the host name of the bind for Call Home; and there is a session only after the handshake was completed.",
  "all executions, hosts, both TLS libraries",
  "a universal statement about all paths to a session",
  ["src/session_client_tls.c: nc_client_tls_session_new, nc_connect_tls, nc_accept_callhome_tls_sock"])
p("Configured TLS versions and cipher suites are in force",
  "When a server makes a TLS handshake, the versions and cipher suites of its configuration are in force, under the names the TLS library knows them by, stored in memory of sufficient size.",
  "all configurations and executions, both TLS libraries",
  "tests are built with one TLS library and look at few suites",
  ["src/session_server_tls.c: nc_accept_tls_session", "src/session_mbedtls.c: nc_tls_setup_config_from_ctx_wrap, nc_tls_append_cipher_suite_wrap, nc_tls_process_cipher_suite_wrap"])

p("A TLS session is released completely, and nothing of a client twice",
  "Freeing a session that came about over TLS, on a client or a server, frees each object made for it exactly once and closes the socket exactly once; no attempt of a client frees an object twice or closes the socket twice, whatever fails.",
  "every step succeeding or failing, both TLS libraries",
  "needs failures of every call",
  ["src/session_client_tls.c: nc_client_tls_session_new", "src/session_server_tls.c: nc_accept_tls_session", "src/session.c: nc_session_free_transport"])
p("No operation runs without a valid request",
  "nc_ps_poll() does not call the callback of an operation unless it read a request with a message-id that libyang accepted: otherwise its result does not depend on what the callback would do.",
  "all states, all messages, all callbacks",
  "a non-interference statement about all callbacks",
  ["src/session_server.c: nc_ps_poll, nc_server_recv_rpc_io, nc_server_send_reply_io"])
p("At most one reply to what was read",
  "One call of nc_ps_poll() sends at most one message, on the session it served; it answers what was read there: with the attributes of the request, an error if it was invalid, and nothing if nothing was read.",
  "all states and inputs",
  "all states and inputs",
  ["src/session_server.c: nc_ps_poll, nc_server_send_reply_io"])
p("Every termination reason has its cause",
  "Whenever the termination reason of a session changes during nc_ps_poll(), or is set after any history of calls, the event that the reason names happened to that session.",
  "all histories of calls",
  "all histories",
  ["src/session_server.c: nc_ps_poll, nc_ps_poll_session_io"])
p("Which sessions never time out, and when Call Home sessions do",
  "nc_ps_poll() never ends a session as timed out if the idle timeout is 0, if it has a notification subscription or if it is a Call Home session (unless a callback of the application sets that reason itself); a Call Home session of a periodic connection is ended exactly if it has none and its idle timeout passed since the last request.",
  "all states, times",
  "all times",
  ["src/session_server.c: nc_ps_poll_session_io, nc_server_ch_client_thread_session_cond_wait"])
p("A server returns a session exactly after a completed handshake",
  "nc_accept() returns NC_MSG_HELLO if and only if it returns a session; that session is running, its transport was accepted and its hello received, and it has the id and version of that handshake.",
  "all transports, hellos, failures",
  "all hellos and failures",
  ["src/session_server.c: nc_accept"])
p("Removing Call Home binds of a client keeps all others",
  "nc_client_ch_del_bind() removes only binds that match and keeps all others; it fails exactly if none matches, changing nothing; repeated until it fails, it leaves no bind that matches.",
  "all lists of binds, addresses, ports",
  "all lists",
  ["src/session_client.c: nc_client_ch_del_bind"])
p("A connection is served by the endpoint it was accepted on",
  "After every sequence of operations on listening endpoints, the bind at each position listens for the endpoint at that position, and a connection accepted by nc_accept() is served with the options of the endpoint whose socket it came in on.",
  "all sequences of configuration operations",
  "all sequences",
  ["src/session_server.c: nc_server_add_endpt_unix_socket_listen, nc_server_set_address_port, nc_sock_accept_binds, nc_accept"])
p("References between endpoints of an accepted configuration end",
  "If the check of references succeeds, each reference is to another endpoint with that name and transport, every chain of references ends and none comes back to where it started.",
  "all configurations",
  "all configurations",
  ["src/server_config.c: nc_server_config_check_endpt_references, nc_server_config_check_endpt_reference_cycle"])
p("Fingerprints match exactly the certificates with that digest",
  "Texts of digests are exact and two of them are equal exactly if the digests are; a configured fingerprint of a well-formed text matches a certificate exactly if the digest of the certificate by the algorithm of its first octet is the one written.",
  "all digests of at least one byte, all certificates",
  "all digests",
  ["src/session_server_tls.c: nc_server_tls_digest_to_hex, nc_server_tls_cert_to_name"])
p("A failed lock call leaves the lock as it was",
  "If a thread's attempt to lock the RPC lock of a session times out or fails, all it did in between is harmless to others and it holds nothing afterwards.",
  "any number of threads, every interleaving",
  "all interleavings",
  ["src/session.c: nc_session_rpc_lock"])
p("A polling round looks at each session once",
  "A round of nc_ps_poll() starts after the session served last and looks at each session at most once, in a circle; it ends at the first session with an event, and without one it has looked at all of them.",
  "all numbers of sessions, all behaviours of each",
  "all behaviours",
  ["src/session_server.c: nc_ps_poll"])
p("Whom an SSH server let in is connected",
  "If the server answered any authentication request of an SSH client with success, the client is connected: it tries nothing more and does not fail.",
  "all servers, keys, prompts, preferences",
  "all answers",
  ["src/session_client_ssh.c: connect_ssh_session"])
p("No capability ends a hello early",
  "The hello of a client or server contains the end-of-message marker in no place, whatever the capabilities are.",
  "all lists of capabilities",
  "all texts",
  ["src/io.c: nc_write_msg_io"])
p("A server always announces both versions and no capability twice",
  "If nc_server_get_cpblts_version() gives a list, it contains both base capabilities and no two capabilities with the same identifier (URI without parameters).",
  "all contexts and options",
  "all contexts",
  ["src/session.c: nc_server_get_cpblts_version"])
p("On a 1.0 session no server can crash a client",
  "Whatever bytes a server sends on a 1.0 session, no sequence of calls of a client that receives replies and notifications has undefined behaviour in the modelled code.",
  "all byte streams, all sequences of calls",
  "all byte streams",
  ["src/io.c: nc_read_msg_io", "src/session_client.c: recv_msg, recv_reply, nc_recv_notif"])
p("Two peers using the library agree on 1.1",
  "If a server and a client both send the hellos the library makes for them, both establish a session of version 1.1.",
  "all contexts, options, session ids",
  "all contexts",
  ["src/session.c: nc_handshake_io, nc_send_hello_io, nc_server_recv_hello_io, nc_client_recv_hello_io"])

p("SSH public keys made from private keys",
  "nc_server_config_add_ssh_hostkey() and the other calls that make the public part of a key pair from a private key of RSA or of a NIST curve write the base64 text of exactly the public key blob of RFC 4253 and RFC 5656 of that key.",
  "all keys, both TLS libraries",
  "needs all keys; a test compares one RSA key",
  ["src/server_config_util.c: nc_server_config_util_pkey_to_ssh_pubkey, nc_server_config_util_ssh_pubkey_rsa, nc_server_config_util_ssh_pubkey_ec", "src/session_openssl.c: nc_tls_get_ec_pubkey_params_wrap, nc_tls_get_rsa_pubkey_params_wrap, nc_tls_ec_point_to_binary_wrap"])
p("SSH public keys of RSA",
  "For every RSA private key with non-zero exponent and modulus, the text made for its public part is the base64 text of the blob of RFC 4253; different keys have different texts; and the server that reads the text back recognises a key of RSA, giving the import of libssh exactly that text.",
  "all RSA keys (numbers of less than 2^32-1 bytes), both TLS libraries",
  "all numbers, in particular those whose highest bit is set",
  ["src/server_config_util.c: nc_server_config_util_pkey_to_ssh_pubkey", "src/session_server.c: nc_server_ssh_create_ssh_pubkey"])
p("Public key files are read correctly",
  "For every file in the format of RFC 4716 the configuration gets exactly the key in it, without its headers; and whenever a file is read with success, there is a key.",
  "all files in that format",
  "all headers and line lengths",
  ["src/server_config_util.c: nc_server_config_util_read_ssh2_pubkey, nc_server_config_util_read_openssh_pubkey, nc_server_config_util_get_ssh_pubkey_file"])
p("Private keys and certificates survive the configuration",
  "If nc_server_config_add_ssh_hostkey(), nc_server_config_add_tls_server_cert() or the keystore calls make a configuration from a private key file, its text is what is between the lines of the key as the libraries write it, the identity of its format leads back to that format, and the text the server later gives to the TLS library, or to libssh in a file, has the same label; the same for certificates.",
  "all keys and texts, all formats",
  "all texts and formats",
  ["src/server_config_util.c: nc_server_config_util_get_asym_key_pair, nc_server_config_util_get_privkey, nc_server_config_util_pem_strip_header_footer, nc_server_config_util_read_certificate, nc_server_config_util_privkey_format_to_identityref", "src/session_server_tls.c: nc_base64der_to_privkey", "src/session_server_ssh.c: nc_server_ssh_privkey_data_to_tmp_file"])
p("Host keys and temporary files",
  "A host key of the configuration is accepted only if libssh accepted a file with that key, and nothing of the key stays in /tmp.",
  "all failures of the calls on the file",
  "needs failures of every call",
  ["src/session_server_ssh.c: nc_server_ssh_privkey_data_to_tmp_file, nc_ssh_bind_add_hostkeys"])

p("All CRL distribution points are found",
  "For every certificate in use and of the store, the URIs CRLs are downloaded from are exactly the URIs of the full names of its distribution points, each once and in order, with both TLS libraries.",
  "all certificates with any number of extensions, distribution points and names",
  "all certificates; tests have one with one URI",
  ["src/session_mbedtls.c: nc_server_tls_parse_crl_dist_points, nc_server_tls_get_crl_distpoint_uris_wrap", "src/session_openssl.c: nc_server_tls_get_crl_distpoint_uris_wrap"])
p("Parsing distribution points is memory safe",
  "Whatever certificates there are, listing their distribution points with mbedTLS has no undefined behaviour.",
  "all byte sequences as extensions",
  "all byte sequences",
  ["src/session_mbedtls.c: nc_server_tls_parse_crl_dist_points, nc_server_tls_get_crl_distpoint_uris_wrap"])
p("Parsing distribution points stays inside the certificate and ends",
  "Whatever bytes the extensions of the certificates are, listing their distribution points with mbedTLS reads no byte outside of them, and it ends.",
  "all byte sequences as extensions",
  "all byte sequences",
  ["src/session_mbedtls.c: nc_server_tls_parse_crl_dist_points, nc_server_tls_get_crl_distpoint_uris_wrap"])

p("Call Home options follow the configuration",
  "After any sequence of valid configurations given by nc_server_config_setup_data() and nc_server_config_setup_diff() the Call Home clients and endpoints of the server and all their options (addresses, ports, transport, keepalives, connection type, reconnect strategy) are those of the resulting configuration, defaults included.",
  "all sequences of diffs and data",
  "all sequences of diffs; tests apply a few",
  ["src/server_config.c: nc_server_config_parse_tree, nc_server_config_setup_diff, nc_server_config_setup_data", "src/server_config.c: nc_server_config_netconf_client, nc_server_config_endpoint, nc_server_config_ch_del_endpt, nc_server_config_destroy_ch_client, nc_server_config_ssh, nc_server_config_tls"])
p("Configuration is applied in order and stops at the first failure",
  "A diff or data are applied node by node in document order with the operation of the node or of its nearest ancestor; descendants of deleted nodes are skipped. If applying fails, all nodes before the failing one have been applied, none after it, and the failing node has changed nothing but possibly added a Call Home client whose thread could not be created.",
  "all trees and states",
  "all trees",
  ["src/server_config.c: nc_server_config_parse_tree, nc_server_config_setup_diff, nc_server_config_setup_data"])
p("Whole data replace the Call Home configuration",
  "If nc_server_config_setup_data() succeeds, the Call Home clients of the server afterwards depend only on the data, not on what was configured before.",
  "all data and all states before",
  "all pairs of states",
  ["src/server_config.c: nc_server_config_parse_tree, nc_server_config_setup_diff, nc_server_config_setup_data"])

p("Removing a Call Home client is safe at any time",
  "Whenever a Call Home client is removed from the configuration, its thread is told to end and has returned when the removal is over, its data are released once, no released or NULL pointer is used and the program is not aborted, for every interleaving of the thread with the removal.",
  "all executions: interleavings of configuration changes, dispatching and any number of threads",
  "interleavings depend on the scheduler; tests see a few",
  ["src/session_server.c: nc_ch_client_thread, nc_server_ch_client_thread_session_cond_wait, nc_server_ch_client_thread_is_running_wait, nc_server_ch_client_with_endpt_lock, nc_connect_ch_client_dispatch", "src/server_config.c: nc_server_config_ch_destroy_endpt, nc_server_config_destroy_ch_client, nc_server_config_ch_del_client"])
p("A removed Call Home client is not used and its thread ends",
  "In every execution, a thread uses the structure of its client only while the client is configured, and no two threads use it at once. The removal of a client that has told a thread to end is over only when the thread has returned and released its data; the thread never has to wait and needs at most three steps for that.",
  "all executions",
  "interleavings depend on the scheduler",
  ["src/session_server.c: nc_ch_client_thread, nc_server_ch_client_thread_session_cond_wait, nc_server_ch_client_thread_is_running_wait, nc_server_ch_client_with_endpt_lock, nc_connect_ch_client_dispatch", "src/server_config.c: nc_server_config_ch_destroy_endpt, nc_server_config_destroy_ch_client, nc_server_config_ch_del_client"])

p("The context of a client session has the modules of the server",
  "When a new client session is established with the automatic fill of its context, every module that the server implements (by its yang-library or, without it, its capabilities) is implemented in the context with the features the server has enabled, or the session is marked as not strict so that unknown data are ignored.",
  "all servers, local files, callbacks and behaviours of libyang, as functions of all that happened before",
  "the modules, files and replies are arbitrary; tests use a few servers",
  ["src/session_client.c: nc_ctx_check_and_fill, nc_ctx_fill, nc_ctx_fill_ietf_netconf, nc_ctx_load_module", "src/session_client.c: retrieve_module_data, retrieve_module_data_imp, retrieve_module_data_localfile, retrieve_module_data_getschema", "src/session_client.c: build_module_info_yl, get_oper_data, nc_client_set_new_session_context_schema_mount"])
p("The user's module callback is restored",
  "After nc_ctx_check_and_fill() the import callback of the context is the one the user had set, whatever failed.",
  "all servers, local files, callbacks and behaviours of libyang, as functions of all that happened before",
  "the modules, files and replies are arbitrary; tests use a few servers",
  ["src/session_client.c: nc_ctx_check_and_fill, nc_ctx_fill, nc_ctx_fill_ietf_netconf, nc_ctx_load_module"])
p("Sources of modules are tried in order",
  "While the context is filled, a <get-schema> is sent only if the server announced ietf-netconf-monitoring, and only after no local file of that name and revision was found, except for imports that libyang asks for without a revision. The callback of the user is called only if there is one, after a local file was not found and <get-schema> gave nothing or could not be used. A local file that is used when a revision is asked for has a revision in its name.",
  "all servers, local files, callbacks and behaviours of libyang, as functions of all that happened before",
  "the modules, files and replies are arbitrary; tests use a few servers",
  ["src/session_client.c: nc_ctx_check_and_fill, nc_ctx_fill, nc_ctx_fill_ietf_netconf, nc_ctx_load_module", "src/session_client.c: retrieve_module_data, retrieve_module_data_imp, retrieve_module_data_localfile, retrieve_module_data_getschema"])
p("A session whose context was filled is running",
  "If filling the context succeeds, the session is still running.",
  "all servers, local files, callbacks and behaviours of libyang, as functions of all that happened before",
  "the modules, files and replies are arbitrary; tests use a few servers",
  ["src/session_client.c: nc_ctx_check_and_fill, nc_ctx_fill, nc_ctx_fill_ietf_netconf, nc_ctx_load_module", "src/session_client.c: retrieve_module_data, retrieve_module_data_imp, retrieve_module_data_localfile, retrieve_module_data_getschema", "src/session_client.c: build_module_info_yl, get_oper_data, nc_client_set_new_session_context_schema_mount"])
p("The base NETCONF module is always available",
  "Every server that can be talked to gets a context in which ietf-netconf is implemented, if need be from the copy in the library.",
  "all servers, local files, callbacks and behaviours of libyang, as functions of all that happened before",
  "the modules, files and replies are arbitrary; tests use a few servers",
  ["src/session_client.c: nc_ctx_check_and_fill, nc_ctx_fill, nc_ctx_fill_ietf_netconf, nc_ctx_load_module"])
p("The options of the context are restored",
  "After nc_ctx_check_and_fill() the search directory and compilation options of the context are what they were before.",
  "all servers, local files, callbacks and behaviours of libyang, as functions of all that happened before",
  "the modules, files and replies are arbitrary; tests use a few servers",
  ["src/session_client.c: nc_ctx_check_and_fill, nc_ctx_fill, nc_ctx_fill_ietf_netconf, nc_ctx_load_module"])

p("Sockets of outgoing connections have one owner",
  "Every socket created for an outgoing connection is at any time exactly one of: closed, the pending socket of its Call Home endpoint, or the socket of one session (or of the client that asked for it). It is never closed twice nor touched after it was closed, and none is left open when the endpoint is removed and its sessions have ended.",
  "all sequences of attempts, changes of the configuration, removals and ends of sessions, and all outcomes of the system calls",
  "which system call fails or times out, and when, cannot be chosen in tests; all interleavings with changes of the configuration matter",
  ["src/session_client.c: sock_connect, nc_sock_connect", "src/session_server.c: nc_connect_ch_endpt, nc_ch_client_thread", "src/server_config.c: nc_server_config_ch_del_endpt, nc_server_config_remote_address"])
p("A Call Home session knows its peer",
  "The host that nc_session_get_host() tells for a Call Home session is the address the session is connected to.",
  "all sequences of attempts, changes of the configuration, removals and ends of sessions, and all outcomes of the system calls",
  "which system call fails or times out, and when, cannot be chosen in tests; all interleavings with changes of the configuration matter",
  ["src/session_client.c: sock_connect, nc_sock_connect", "src/session_server.c: nc_connect_ch_endpt, nc_ch_client_thread"])
p("A Call Home session is connected to the configured address",
  "A Call Home session is connected to an address of the host that was configured for its endpoint when the session was established.",
  "all sequences of attempts, changes of the configuration, removals and ends of sessions, and all outcomes of the system calls",
  "which system call fails or times out, and when, cannot be chosen in tests; all interleavings with changes of the configuration matter",
  ["src/session_client.c: sock_connect, nc_sock_connect", "src/session_server.c: nc_connect_ch_endpt, nc_ch_client_thread", "src/server_config.c: nc_server_config_ch_del_endpt, nc_server_config_remote_address"])
p("A client connects to the first address that answers",
  "A client connecting to a host is connected to the first of the addresses of that host that can be connected, and fails only if there is none (or the options of the socket cannot be set).",
  "all lists of addresses with any outcome of each attempt",
  "which system call fails or times out, and when, cannot be chosen in tests; all interleavings with changes of the configuration matter",
  ["src/session_client.c: sock_connect, nc_sock_connect"])
p("A Call Home endpoint with an address that answers is connected",
  "An attempt to connect a Call Home endpoint whose host has an address that can be connected establishes the connection, at the latest after a bounded number of attempts.",
  "all sequences of attempts, changes of the configuration, removals and ends of sessions, and all outcomes of the system calls",
  "which system call fails or times out, and when, cannot be chosen in tests; all interleavings with changes of the configuration matter",
  ["src/session_client.c: sock_connect, nc_sock_connect", "src/session_server.c: nc_connect_ch_endpt, nc_ch_client_thread"])
p("Keepalives are set on Call Home connections",
  "The configured keepalives have been set on the socket of every Call Home session.",
  "all sequences of attempts, changes of the configuration, removals and ends of sessions, and all outcomes of the system calls",
  "which system call fails or times out, and when, cannot be chosen in tests; all interleavings with changes of the configuration matter",
  ["src/session_client.c: sock_connect, nc_sock_connect", "src/session_server.c: nc_connect_ch_endpt, nc_ch_client_thread"])
p("TCP_NODELAY is set on Call Home connections",
  "TCP_NODELAY has been set on the socket of every Call Home session.",
  "all sequences of attempts, changes of the configuration, removals and ends of sessions, and all outcomes of the system calls",
  "which system call fails or times out, and when, cannot be chosen in tests; all interleavings with changes of the configuration matter",
  ["src/session_client.c: sock_connect, nc_sock_connect", "src/session_server.c: nc_connect_ch_endpt, nc_ch_client_thread"])

p("The keystore and the truststore follow the configuration",
  "After any sequence of nc_server_config_setup_diff() and nc_server_config_setup_data() with valid data, all calls succeed and the server has exactly the asymmetric keys, certificate bags, public key bags, certificates and public keys that are configured, each with its values (public key and format, private key and format, data of the certificate); a value that was removed is no longer there.",
  "all sequences of calls with any trees of the keystore and of the truststore, with lists of any length",
  "the number of sequences of diffs is unbounded; deletions reorder the arrays, so what a later diff does depends on all the earlier ones",
  ["src/server_config_ks.c: nc_server_config_parse_keystore and its handlers", "src/server_config_ts.c: nc_server_config_parse_truststore and its handlers", "src/server_config.c: nc_server_config_setup_diff, nc_server_config_setup_data, nc_server_config_parse_tree"])
p("Memory of the keystore and the truststore",
  "Whatever trees are applied, and whether the calls succeed or fail: every key, bag, certificate and public key ever created is either in one of the lists or was freed, exactly once; arrays are not accessed out of their bounds, as long as no list has 65535 entries or more when another is added. Applying data without keystore and truststore frees all.",
  "all sequences of calls with any trees of the keystore and of the truststore, with lists of any length",
  "the number of sequences of diffs is unbounded; deletions reorder the arrays, so what a later diff does depends on all the earlier ones",
  ["src/server_config_ks.c: nc_server_config_parse_keystore and its handlers", "src/server_config_ts.c: nc_server_config_parse_truststore and its handlers", "src/server_config.c: nc_server_config_setup_diff, nc_server_config_setup_data, nc_server_config_parse_tree"])
p("Data replace the keystore and the truststore",
  "The result of nc_server_config_setup_data(), the return value and the contents of the keystore and of the truststore with their order, does not depend on what was configured before.",
  "all sequences of calls with any trees of the keystore and of the truststore, with lists of any length; all pairs of histories before the call",
  "the number of sequences of diffs is unbounded; deletions reorder the arrays, so what a later diff does depends on all the earlier ones",
  ["src/server_config_ks.c: nc_server_config_parse_keystore and its handlers", "src/server_config_ts.c: nc_server_config_parse_truststore and its handlers", "src/server_config.c: nc_server_config_setup_diff, nc_server_config_setup_data, nc_server_config_parse_tree"])

p("Answers of a keyboard-interactive client",
  "The server waits for the answers of the client until they come, the connection is lost or the auth-timeout since the question is over (0: no limit); answers that come before that are used, and nothing else ends the wait.",
  "all sequences of turns of the loop, with any clock and any timeout",
  "a PAM module is an arbitrary program that talks to the client any number of times; when messages come relative to the clock is up to the client",
  ["src/session_server_ssh.c: nc_server_ssh_kbdint_get_nanswers, nc_pam_conv_clb, nc_server_ssh_auth_kbdint_pam, nc_server_ssh_auth_kbdint_system, nc_server_ssh_auth_kbdint"])
p("Questions of PAM modules",
  "What the client is shown in a keyboard-interactive exchange is exactly the questions of the modules in their order; the echo is on exactly for those of the style PAM_PROMPT_ECHO_ON, so that the answer to a question without echo is never echoed. Nothing is shown for messages that are not acceptable.",
  "all lists of messages of modules, all behaviours of clients",
  "a PAM module is an arbitrary program that talks to the client any number of times; when messages come relative to the clock is up to the client",
  ["src/session_server_ssh.c: nc_server_ssh_kbdint_get_nanswers, nc_pam_conv_clb, nc_server_ssh_auth_kbdint_pam, nc_server_ssh_auth_kbdint_system, nc_server_ssh_auth_kbdint"])
p("Answers reach the module that asked",
  "The conversation function succeeds exactly if the messages are acceptable and the client gave in time as many answers as there are questions. Then the array of responses has one response for each message, for a question the answer to it, as pam_conv(3) says; a failed conversation has no answers in it.",
  "all lists of messages, all behaviours of clients",
  "a PAM module is an arbitrary program that talks to the client any number of times; when messages come relative to the clock is up to the client",
  ["src/session_server_ssh.c: nc_server_ssh_kbdint_get_nanswers, nc_pam_conv_clb, nc_server_ssh_auth_kbdint_pam, nc_server_ssh_auth_kbdint_system, nc_server_ssh_auth_kbdint"])
p("PAM decides",
  "A keyboard-interactive client is authenticated exactly if PAM is configured and started, its modules authenticate the user with the answers the client gave, and the account is valid, or its token has expired and was changed. The account is checked only after a successful authentication, the token changed only if PAM asks for it, and PAM is closed exactly once at the end if it has a handle.",
  "all PAM stacks as programs with any number of conversations, all behaviours of clients",
  "a PAM module is an arbitrary program that talks to the client any number of times; when messages come relative to the clock is up to the client",
  ["src/session_server_ssh.c: nc_server_ssh_kbdint_get_nanswers, nc_pam_conv_clb, nc_server_ssh_auth_kbdint_pam, nc_server_ssh_auth_kbdint_system, nc_server_ssh_auth_kbdint"])
p("Passwords of the system",
  "Without PAM, a keyboard-interactive client is authenticated exactly if the system has a usable password for the user (C32) and the client gave exactly one answer, in time, that is this password; the question is sent without echo.",
  "all entries of the password database, all days, all behaviours of clients",
  "a PAM module is an arbitrary program that talks to the client any number of times; when messages come relative to the clock is up to the client",
  ["src/session_server_ssh.c: nc_server_ssh_kbdint_get_nanswers, nc_pam_conv_clb, nc_server_ssh_auth_kbdint_pam, nc_server_ssh_auth_kbdint_system, nc_server_ssh_auth_kbdint"])
p("An authentication takes at most the auth-timeout",
  "With an auth-timeout T other than 0, a client is authenticated only by what it sent within T seconds since the start of the authentication, and the loop ends then; with T = 0 there is no limit.",
  "all sequences of turns of the loop with any requests and any clock",
  "a PAM module is an arbitrary program that talks to the client any number of times; when messages come relative to the clock is up to the client",
  ["src/session_server_ssh.c: nc_accept_ssh_session_auth, nc_server_ssh_kbdint_get_nanswers"])

p("A session outlives its notification threads",
  "nc_session_free() of a client session frees it only after all its notification threads have ended; none of them uses the session afterwards.",
  "all interleavings of any number of nc_recv_notif_dispatch() calls, notification threads and nc_session_free()",
  "interleavings of the threads of the application, the notification threads and the one that frees the session",
  ["src/session_client.c: nc_recv_notif_thread, nc_recv_notif_dispatch_data, nc_session_ntf_thread_running", "src/session.c: nc_session_free (855-874)"])
p("Is a notification thread running",
  "nc_session_ntf_thread_running() is 1 exactly while a notification thread of the session runs.",
  "all interleavings as above",
  "interleavings of the threads of the application, the notification threads and the one that frees the session",
  ["src/session_client.c: nc_recv_notif_thread, nc_recv_notif_dispatch_data, nc_session_ntf_thread_running", "src/session.c: nc_session_free (855-874)"])
p("Callbacks of notification threads",
  "A notification thread calls the callback once for each notification it received, in their order, until it ends, and never afterwards; user data are freed once, as its last act.",
  "all interleavings, all sequences of results of receiving",
  "interleavings of the threads of the application, the notification threads and the one that frees the session",
  ["src/session_client.c: nc_recv_notif_thread, nc_recv_notif_dispatch_data, nc_session_ntf_thread_running", "src/session.c: nc_session_free (855-874)"])
p("Told to quit, a notification thread quits",
  "After nc_session_free() told the notification threads to quit, each of them calls its callback at most once more.",
  "all interleavings",
  "interleavings of the threads of the application, the notification threads and the one that frees the session",
  ["src/session_client.c: nc_recv_notif_thread, nc_recv_notif_dispatch_data, nc_session_ntf_thread_running", "src/session.c: nc_session_free (855-874)"])
p("Contexts of client threads live as long as they are used",
  "A client context shared by threads (nc_client_get/set_thread_context()) is freed exactly when the last thread that has it leaves it or ends, and is not used afterwards; that of the main thread is never freed.",
  "all interleavings of threads that are created, share contexts and end, down to single accesses to the counters",
  "interleavings of the threads of the application, the notification threads and the one that frees the session",
  ["src/session_client.c: nc_client_context_free, nc_client_context_location, nc_client_get_thread_context, nc_client_set_thread_context"])
p("Settings of client threads",
  "A setting changed in a thread is seen by exactly the threads that share its context; a thread that made no settings has the defaults of the library, the same in all threads.",
  "all interleavings as above",
  "interleavings of the threads of the application, the notification threads and the one that frees the session",
  ["src/session_client.c: nc_client_context_free, nc_client_context_location, nc_client_get_thread_context, nc_client_set_thread_context"])

p("SSH options in use are those configured",
  "After any sequence of nc_server_config_setup_data() and nc_server_config_setup_diff() the users of a listening SSH endpoint with their methods and passwords, its host keys in their order, and auth-timeout are those of the configuration the calls describe.",
  "all sequences of calls with valid trees of any size",
  "the state after a sequence of diffs depends on all of them and on the places of entries in arrays that are compacted",
  ["src/server_config.c: nc_server_config_listen, nc_server_config_endpoint, nc_server_config_ssh, nc_server_config_user, nc_server_config_host_key, nc_server_config_password, nc_server_config_none, nc_server_config_use_system_auth, nc_server_config_auth_timeout, nc_server_config_parse_tree, nc_server_config_setup_diff, nc_server_config_setup_data"])
p("Entries of SSH options are freed once",
  "Every endpoint, user and host key the configuration calls made is either in use or was freed exactly once, no freed one is used, and after the whole configuration is removed all are freed.",
  "all sequences of calls with valid trees of any size",
  "the state after a sequence of diffs depends on all of them and on the places of entries in arrays that are compacted",
  ["src/server_config.c: nc_server_config_listen, nc_server_config_endpoint, nc_server_config_ssh, nc_server_config_user, nc_server_config_host_key, nc_server_config_password, nc_server_config_none, nc_server_config_use_system_auth, nc_server_config_auth_timeout, nc_server_config_parse_tree, nc_server_config_setup_diff, nc_server_config_setup_data"])
p("Configured users and nobody else are authenticated",
  "After any sequence of configuration calls a client is authenticated at an endpoint only as a user configured there, and only by methods configured for that user, a password being compared with the configured one.",
  "all sequences of calls with valid trees, all sequences of SSH messages",
  "the state after a sequence of diffs depends on all of them and on the places of entries in arrays that are compacted",
  ["src/server_config.c: nc_server_config_listen, nc_server_config_endpoint, nc_server_config_ssh, nc_server_config_user, nc_server_config_host_key, nc_server_config_password, nc_server_config_none, nc_server_config_use_system_auth, nc_server_config_auth_timeout, nc_server_config_parse_tree, nc_server_config_setup_diff, nc_server_config_setup_data", "src/session_server_ssh.c: nc_server_ssh_auth, nc_server_ssh_auth_password, nc_server_ssh_auth_none"])

p("Functions that add to a configuration set what they are for",
  "Every nc_server_config_add_*() function given a configuration and any identifiers and values succeeds exactly if libyang takes them; then the leaves documented for it have the given values, their parents exist, the alternatives to them (another case of the choice) are gone; every other node is as before, also after a failure. What is to be refused (unknown transport, map type, start-with, id 0, unreadable files) is refused.",
  "all configurations, all identifiers and values, all 91 functions for listening endpoints and Call Home, all behaviours of libyang on values",
  "names are written into paths that libyang reads again, and each of the 91 functions has its own format strings; examples show a few names and trees",
  ["src/server_config_util.c: nc_server_config_create, nc_server_config_append, nc_server_config_delete, nc_server_config_check_delete, nc_server_config_add_address_port, nc_server_config_add_keystore_asym_key, nc_server_config_add_truststore_pubkey, nc_server_config_add_ch_period", "src/server_config_util_ssh.c: nc_server_config_add_ssh_hostkey, nc_server_config_add_ssh_user_pubkey, nc_server_config_del_ssh_truststore_ref", "src/server_config_util_tls.c: nc_server_config_add_tls_server_cert, nc_server_config_add_tls_ctn", "src/server_config.h"])
p("Functions that remove from a configuration remove what they are for",
  "Every nc_server_config_del_*() function given a configuration removes the documented node and everything below it if it is there, and fails otherwise; all other nodes are as before. Without a name all entries of the list are removed.",
  "all configurations and identifiers, all functions for listening endpoints and Call Home",
  "names are written into paths that libyang reads again, and each of the 91 functions has its own format strings; examples show a few names and trees",
  ["src/server_config_util.c: nc_server_config_create, nc_server_config_append, nc_server_config_delete, nc_server_config_check_delete, nc_server_config_add_address_port, nc_server_config_add_keystore_asym_key, nc_server_config_add_truststore_pubkey, nc_server_config_add_ch_period", "src/server_config_util_ssh.c: nc_server_config_add_ssh_hostkey, nc_server_config_add_ssh_user_pubkey, nc_server_config_del_ssh_truststore_ref", "src/server_config_util_tls.c: nc_server_config_add_tls_server_cert, nc_server_config_add_tls_ctn", "src/server_config.h"])
p("A configuration is made if there is none",
  "Every nc_server_config_add_*() function given *config NULL makes the tree: it has exactly what is set and the parents of it.",
  "all identifiers and values, all functions",
  "names are written into paths that libyang reads again, and each of the 91 functions has its own format strings; examples show a few names and trees",
  ["src/server_config_util.c: nc_server_config_create, nc_server_config_append, nc_server_config_delete, nc_server_config_check_delete, nc_server_config_add_address_port, nc_server_config_add_keystore_asym_key, nc_server_config_add_truststore_pubkey, nc_server_config_add_ch_period", "src/server_config_util_ssh.c: nc_server_config_add_ssh_hostkey, nc_server_config_add_ssh_user_pubkey, nc_server_config_del_ssh_truststore_ref", "src/server_config_util_tls.c: nc_server_config_add_tls_server_cert, nc_server_config_add_tls_ctn", "src/server_config.h"])
p("A call never loses the configuration",
  "After any nc_server_config_add_*() or nc_server_config_del_*() call on a configuration with the container netconf-server, successful or not, whatever the identifiers are, *config still points to a tree with that container and no tree is lost.",
  "all configurations, identifiers, values and calls",
  "names are written into paths that libyang reads again, and each of the 91 functions has its own format strings; examples show a few names and trees",
  ["src/server_config_util.c: nc_server_config_create, nc_server_config_append, nc_server_config_delete, nc_server_config_check_delete, nc_server_config_add_address_port, nc_server_config_add_keystore_asym_key, nc_server_config_add_truststore_pubkey, nc_server_config_add_ch_period", "src/server_config_util_ssh.c: nc_server_config_add_ssh_hostkey, nc_server_config_add_ssh_user_pubkey, nc_server_config_del_ssh_truststore_ref", "src/server_config_util_tls.c: nc_server_config_add_tls_server_cert, nc_server_config_add_tls_ctn", "src/server_config.h"])

p("Requests are freed safely",
  "For every nc_rpc_*() constructor, any parameters and parameter type, and whichever allocations fail: as long as the request lives nothing it refers to has been freed; after nc_rpc_free() (or the constructor's failure) no block was freed twice, none was freed that the library did not allocate or was not handed over, nothing was read that was never set; the blocks given by the caller are freed exactly if they were handed over (NC_PARAMTYPE_FREE) and the request was made.",
  "all constructors, parameters, parameter types and failing allocations",
  "the failing allocation can be any of them, for each of 27 constructors and three kinds of ownership; tests free what they made without failures",
  ["src/messages_client.c: nc_rpc_act_generic \u2026 nc_rpc_resyncsub, nc_rpc_free"])
p("Nothing allocated for a request is lost",
  "Whatever allocation fails, after nc_rpc_free() or the constructor's failure everything allocated for the request is freed.",
  "all constructors, parameters, parameter types and failing allocations",
  "the failing allocation can be any of them, for each of 27 constructors and three kinds of ownership; tests free what they made without failures",
  ["src/messages_client.c: nc_rpc_act_generic \u2026 nc_rpc_resyncsub, nc_rpc_free"])
p("A request that was made has the parameters it was given",
  "A request that was made has every parameter given to its constructor (the caller's block or a copy of it), and an array with all its strings; it is made only of acceptable parameters, and of all of those if no allocation fails.",
  "all constructors, parameters, parameter types and failing allocations",
  "the failing allocation can be any of them, for each of 27 constructors and three kinds of ownership; tests free what they made without failures",
  ["src/messages_client.c: nc_rpc_act_generic \u2026 nc_rpc_resyncsub, nc_rpc_free"])
p("Replies and the errors added to them are freed once",
  "Only error replies take further errors; whatever was added, nc_server_reply_free() frees the reply, the errors taken and the data handed over or copied exactly once and nothing else; the last error is the one given last. If no reply is made nothing is kept and nothing of the caller freed.",
  "all replies, sequences of added errors, parameter types and failing allocations",
  "any number of errors in any order, any failing allocation",
  ["src/messages_server.c: nc_server_reply_ok, nc_server_reply_data, nc_server_reply_err, nc_server_reply_add_err, nc_server_reply_get_last_err, nc_server_reply_free"])
p("Notifications are freed once",
  "After nc_server_notif_free() or a failed nc_server_notif_new() nothing was freed twice, everything allocated is freed, and the event and its time given by the caller exactly if handed over and the notification was made.",
  "all parameters, parameter types and failing allocations",
  "the failing allocation can be any of them",
  ["src/messages_server.c: nc_server_notif_new, nc_server_notif_free"])

p("Asking at the terminal leaves it as it was",
  "After the default callbacks for a password, a passphrase or an interactive answer, whatever fails: every file opened is closed, the buffer is the caller's or freed, and every terminal has the settings it had before (unless the system refuses to restore them). What is to be hidden is never shown while it is typed.",
  "all answers of the system, all terminals (paths may lead to the same one), all settings",
  "needs terminals whose calls fail one after the other",
  ["src/session_client_ssh.c: sshauth_password, sshauth_interactive, sshauth_privkey_passphrase, nc_open_tty_noecho, nc_open_in, nc_open_out, nc_close_inout"])
p("What is typed is returned",
  "The default callbacks return exactly the first line typed (or all up to the end of input), whatever its length, and never write outside of their buffer.",
  "all inputs and failures",
  "needs terminals whose calls fail one after the other; lengths beyond the first buffers",
  ["src/session_client_ssh.c: sshauth_password, sshauth_interactive, sshauth_privkey_passphrase, nc_open_tty_noecho, nc_open_in, nc_open_out, nc_close_inout"])
p("Host keys are accepted by DNS only if it vouches for them",
  "With DNSSEC an unknown key is accepted without asking only if a trusted and secured answer to the question for the host has an SSHFP record with the algorithm of the key and its fingerprint; otherwise the rules of the mode of known hosts apply. Entries are added only for unknown keys that were accepted.",
  "all answers of the resolver, key types, modes and known hosts",
  "needs a DNSSEC resolver and answers chosen by an attacker",
  ["src/session_client_ssh.c: sshauth_hostkey_hash_dnssec_check, nc_client_ssh_do_dnssec_sshfp_check, nc_client_ssh_auth_hostkey_check"])
p("A record that vouches for the key is found",
  "If a trusted and secured answer has an SSHFP record with the fingerprint of the key, the key is accepted without asking.",
  "all answers of the resolver",
  "needs a DNSSEC resolver and answers chosen by an attacker",
  ["src/session_client_ssh.c: sshauth_hostkey_hash_dnssec_check, nc_client_ssh_do_dnssec_sshfp_check, nc_client_ssh_auth_hostkey_check"])
p("The user is told the truth about DNS",
  "Before being asked, the user is told that DNS has a matching fingerprint only if there is such a record.",
  "all answers of the resolver, key types, modes and known hosts",
  "needs a DNSSEC resolver and answers chosen by an attacker",
  ["src/session_client_ssh.c: sshauth_hostkey_hash_dnssec_check, nc_client_ssh_do_dnssec_sshfp_check, nc_client_ssh_auth_hostkey_check"])
p("Nothing behind a DNS record is read",
  "The check of SSHFP records reads only the data of the records.",
  "all answers of the resolver",
  "needs a DNSSEC resolver and answers chosen by an attacker",
  ["src/session_client_ssh.c: sshauth_hostkey_hash_dnssec_check, nc_client_ssh_do_dnssec_sshfp_check, nc_client_ssh_auth_hostkey_check"])

p("The intervals used are those configured",
  "After any changes of the configuration (intervals added, removed, all removed) the notifications about expiring certificates use exactly the configured intervals with the months, weeks, days or hours written there, the default ones if none is configured.",
  "all sequences of changes, all intervals the type of the leaf allows, all failures of memory",
  "needs all histories of changes and allocations that fail",
  ["src/server_config.c: nc_server_config_interval, nc_server_config_create_interval, nc_server_config_del_interval, nc_server_config_yang_value2cert_exp_time"])
p("Notifications name the certificate they are about",
  "The XPath given to the callback denotes the expiration date of the certificate that expires, and different certificates have different XPaths.",
  "all configurations with certificates in listening endpoints, Call Home clients, keystore and truststore; all names",
  "needs names that change the structure of an XPath",
  ["src/session_server.c: nc_server_notif_cert_exp_dates_get, nc_server_notif_cert_exp_dates_endpt_get, nc_server_notif_cert_exp_date_append, nc_server_notif_cert_exp_xpath_get"])
p("All certificates are watched",
  "Every certificate of the configuration that can be read gets its notifications, the first at the first scheduled time from now on.",
  "all configurations, certificates and times",
  "needs configurations where one of many certificates is broken",
  ["src/session_server.c: nc_server_notif_cert_exp_dates_get, nc_server_notif_cert_exp_dates_endpt_get, nc_server_notif_cert_exp_date_append, nc_server_notif_cert_exp_xpath_get"])
p("The times of certificates are released",
  "Whatever fails while certificates are collected, what was allocated is released once and nothing else is touched.",
  "all configurations and failures",
  "needs allocations that fail at a chosen place",
  ["src/session_server.c: nc_server_notif_cert_exp_dates_get, nc_server_notif_cert_exp_dates_endpt_get, nc_server_notif_cert_exp_date_append, nc_server_notif_cert_exp_xpath_get"])

p("UNIX sockets are where they were asked for",
  "After success the socket listens at the configured address, and whatever happens no other file is touched.",
  "all addresses, files and failures of system calls",
  "needs addresses at the limit of the system and calls of the system that fail one by one",
  ["src/session_server.c: nc_sock_listen_unix, nc_server_del_endpt_unix_socket_opts"])
p("Nobody connects before the permissions are set",
  "At every moment a client could connect, the file of the socket has the mode, the user and the group configured.",
  "all configurations, all failures, every state between two system calls",
  "needs addresses at the limit of the system and calls of the system that fail one by one",
  ["src/session_server.c: nc_sock_listen_unix, nc_server_del_endpt_unix_socket_opts"])
p("UNIX sockets leave nothing behind",
  "After listening failed, and after the endpoint was removed, there is neither a descriptor nor a file of the socket.",
  "all addresses and failures",
  "needs addresses at the limit of the system and calls of the system that fail one by one",
  ["src/session_server.c: nc_sock_listen_unix, nc_server_del_endpt_unix_socket_opts"])
p("Clients reach the socket they name",
  "A client connects to the socket that listens at the address it was given and to no other; it reaches a server with the same address.",
  "all addresses and files",
  "needs addresses at the limit of the system and calls of the system that fail one by one",
  ["src/session_server.c: nc_sock_listen_unix, nc_server_del_endpt_unix_socket_opts", "src/session_client.c: nc_connect_unix"])
p("UNIX sessions belong to the user that connected",
  "A session over a UNIX socket has the name the system has for the peer, and every peer with an entry is accepted however large the entry is.",
  "all users and entries",
  "needs a user database with entries of any size",
  ["src/session_server.c: nc_accept_unix_session, nc_get_uid", "src/io.c: nc_getpw"])
p("Refused UNIX connections leave nothing behind",
  "If a connection is refused, its socket is closed exactly once and all memory is released.",
  "all users and failures",
  "needs users without an entry",
  ["src/session_server.c: nc_accept_unix_session, nc_get_uid", "src/io.c: nc_getpw"])

p("get-schema answers what was asked",
  "Data in the answer to <get-schema> are the text of a schema of the server with the name, version and format asked for; if there is such a schema there are data, otherwise an error.",
  "all requests, contexts and orders of parameters",
  "needs all contexts and requests",
  ["src/session_server.c: nc_clb_default_get_schema"])
p("get-schema answers whole schemas",
  "Data in the answer are a text libyang printed successfully.",
  "all requests and contexts",
  "needs printers failing in the middle",
  ["src/session_server.c: nc_clb_default_get_schema"])
p("Requests that mean several schemas",
  "If a request means more than one schema, the answer is an error (RFC 6022, data-not-unique).",
  "all requests and contexts",
  "needs contexts with several revisions",
  ["src/session_server.c: nc_clb_default_get_schema"])
p("Modules announced can be had",
  "For each module in the capabilities of a server, a client that asks for it with <get-schema> gets that module.",
  "all modules, contexts and capabilities that fit the buffer",
  "composes the code of the server, of the client and of the callback",
  ["src/session_server.c: nc_clb_default_get_schema", "src/session.c: nc_server_get_cpblts_version", "src/session_client.c: build_module_info_cpblts"])
p("Modules are stored where the user wants",
  "A client stores modules it retrieved only in the directory configured for them, whatever the server announces.",
  "all capabilities, answers and files",
  "needs a hostile server",
  ["src/session_client.c: retrieve_module_data_localfile, retrieve_module_data_getschema", "src/session_client.c: build_module_info_cpblts"])
p("Files that exist are kept",
  "Retrieving a module changes no file that exists.",
  "all capabilities, answers and files",
  "needs a hostile server",
  ["src/session_client.c: retrieve_module_data_localfile, retrieve_module_data_getschema"])
p("Stored modules are those of the server",
  "A module read from the directory where it was stored is the text the server sent.",
  "all texts and failures to write",
  "needs full disks",
  ["src/session_client.c: retrieve_module_data_localfile, retrieve_module_data_getschema"])
p("Reading local modules loses nothing",
  "What is read is the file found, one with a revision if a revision is wanted, and no memory is lost.",
  "all files",
  "needs a search path with files without revision",
  ["src/session_client.c: retrieve_module_data_localfile, retrieve_module_data_getschema"])
p("Texts of modules are released as their source says",
  "The text from the user's callback is released by the function given with it, and not at all if there is none.",
  "all callbacks",
  "needs callbacks with constant texts",
  ["src/session_client.c: retrieve_module_data, retrieve_module_data_imp, free_with_user_data, nc_ctx_load_module"])

p("A closed session is released once and whole",
  "nc_session_free() releases exactly once everything the session has, including the connection if it is the last session on it, and nothing it shares with others or got from the caller.",
  "all sessions, transports, sides and failures",
  "needs all combinations of transports, sides, flags, other sessions and failures",
  ["src/session.c: nc_session_free, nc_session_free_transport, nc_session_free_close_session"])
p("Closing uses nothing released",
  "While a session is closed, nothing is used or released again after it was released; the structure itself comes last.",
  "all sessions and failures",
  "needs all paths",
  ["src/session.c: nc_session_free, nc_session_free_transport, nc_session_free_close_session"])
p("The server is told about the end",
  "A running client sends <close-session> exactly once, before it releases anything but its queue of messages; servers and sessions not running send nothing.",
  "all sessions, all messages arriving meanwhile",
  "needs all schedules of messages",
  ["src/session.c: nc_session_free, nc_session_free_transport, nc_session_free_close_session"])
p("Closing comes to an end",
  "nc_session_free() returns whatever the server sends.",
  "all sequences of messages",
  "needs endless sequences",
  ["src/session.c: nc_session_free, nc_session_free_transport, nc_session_free_close_session"])
p("Sessions on one connection close in any order",
  "Closing one of several sessions on an SSH connection never stops the process.",
  "all sessions on a connection",
  "needs several sessions with different contexts",
  ["src/session.c: nc_session_free, nc_session_free_transport, nc_session_free_close_session"])

p("Client options keep what they were given",
  "Whatever sequence of option calls a client makes, each getter gives the value set last, and the list of key pairs is that of C88, at the level of pointers and allocations.",
  "all sequences of calls, all files, all allocations",
  "needs all sequences of calls and failures of allocation",
  ["src/session_client_tls.c: _nc_client_tls_set_cert_key_paths, _nc_client_tls_set_trusted_ca_paths, _nc_client_tls_destroy_opts", "src/session_client_ssh.c: _nc_client_ssh_add_keypair, _nc_client_ssh_del_keypair, _nc_client_ssh_set_username, _nc_client_ssh_destroy_opts"])
p("Client options are never used after release",
  "No call of the option functions, in any sequence, reads or releases memory that was released.",
  "all sequences of calls, all allocations",
  "needs failing allocations",
  ["src/session_client_tls.c: _nc_client_tls_set_cert_key_paths, _nc_client_tls_set_trusted_ca_paths, _nc_client_tls_destroy_opts", "src/session_client_ssh.c: _nc_client_ssh_add_keypair, _nc_client_ssh_del_keypair, _nc_client_ssh_set_username, _nc_client_ssh_destroy_opts"])
p("nc_client_destroy() leaves nothing",
  "After any sequence of option calls nc_client_destroy() releases every string and table exactly once.",
  "all sequences of calls",
  "needs all sequences of calls and failures",
  ["src/session_client_tls.c: _nc_client_tls_set_cert_key_paths, _nc_client_tls_set_trusted_ca_paths, _nc_client_tls_destroy_opts", "src/session_client_ssh.c: _nc_client_ssh_add_keypair, _nc_client_ssh_del_keypair, _nc_client_ssh_set_username, _nc_client_ssh_destroy_opts"])
p("Call Home has its own options",
  "What is set for Call Home has no effect on what is set for connecting, and the other way round.",
  "all sequences of calls",
  "needs all interleavings of calls",
  ["src/session_client_tls.c: _nc_client_tls_set_cert_key_paths, _nc_client_tls_set_trusted_ca_paths, _nc_client_tls_destroy_opts", "src/session_client_ssh.c: _nc_client_ssh_add_keypair, _nc_client_ssh_del_keypair, _nc_client_ssh_set_username, _nc_client_ssh_destroy_opts"])
p("The default order of methods is the documented one",
  "If no preference was set, interactive authentication is tried first, a public key last, as session_client.h says.",
  "all servers",
  "needs all servers",
  ["src/session_client.c: context_main, nc_client_context_location", "src/session_client.h: nc_client_ssh_set_auth_pref"])

p("Writing to a broken connection ends",
  "If the system call under a transport fails with an error other than EAGAIN and EINTR, nc_write() fails at that call and sends nothing more.",
  "all transports, errors, buffers and later events",
  "needs a connection that breaks at any moment of a write",
  ["src/io.c: nc_read, nc_write, nc_session_is_connected", "src/session_mbedtls.c: nc_server_tls_send, nc_server_tls_recv, nc_tls_read_wrap, nc_tls_write_wrap, nc_tls_close_notify_wrap, nc_server_tls_handshake_step_wrap, nc_client_tls_handshake_step_wrap", "src/session_openssl.c: nc_tls_read_wrap, nc_tls_write_wrap, nc_tls_close_notify_wrap, nc_server_tls_handshake_step_wrap, nc_client_tls_handshake_step_wrap"])
p("Reading from a broken connection ends",
  "If the system call under a transport fails with an error other than EAGAIN and EINTR, nc_read() fails at that call as an I/O error.",
  "all transports, errors and numbers of bytes",
  "needs a connection that breaks at any moment of a read",
  ["src/io.c: nc_read, nc_write, nc_session_is_connected", "src/session_mbedtls.c: nc_server_tls_send, nc_server_tls_recv, nc_tls_read_wrap, nc_tls_write_wrap, nc_tls_close_notify_wrap, nc_server_tls_handshake_step_wrap, nc_client_tls_handshake_step_wrap", "src/session_openssl.c: nc_tls_read_wrap, nc_tls_write_wrap, nc_tls_close_notify_wrap, nc_server_tls_handshake_step_wrap, nc_client_tls_handshake_step_wrap"])
p("Closing TLS ends",
  "Sending the close notify of TLS returns after a bounded number of calls of the library, whatever they give.",
  "all sequences of results",
  "needs a peer that never reads or a broken connection",
  ["src/session_mbedtls.c: nc_server_tls_send, nc_server_tls_recv, nc_tls_read_wrap, nc_tls_write_wrap, nc_tls_close_notify_wrap, nc_server_tls_handshake_step_wrap, nc_client_tls_handshake_step_wrap", "src/session_openssl.c: nc_tls_read_wrap, nc_tls_write_wrap, nc_tls_close_notify_wrap, nc_server_tls_handshake_step_wrap, nc_client_tls_handshake_step_wrap"])
p("A handshake on a broken connection ends",
  "If the system call under TLS fails for good during a handshake, the handshake fails at that step, on both sides.",
  "all errors, both sides, all later events",
  "needs a connection that breaks during the handshake",
  ["src/session_mbedtls.c: nc_server_tls_send, nc_server_tls_recv, nc_tls_read_wrap, nc_tls_write_wrap, nc_tls_close_notify_wrap, nc_server_tls_handshake_step_wrap, nc_client_tls_handshake_step_wrap", "src/session_openssl.c: nc_tls_read_wrap, nc_tls_write_wrap, nc_tls_close_notify_wrap, nc_server_tls_handshake_step_wrap, nc_client_tls_handshake_step_wrap", "src/session_server_tls.c: nc_accept_tls_session", "src/session_client_tls.c: nc_client_tls_session_new"])
p("Both TLS libraries are treated the same",
  "For bytes moved, no bytes for now, a close notify, an end of file, an error of the protocol and an error of the system, reading and writing give the same result with OpenSSL and with MbedTLS.",
  "all situations, numbers, codes and data",
  "needs both libraries and every kind of failure",
  ["src/session_mbedtls.c: nc_server_tls_send, nc_server_tls_recv, nc_tls_read_wrap, nc_tls_write_wrap, nc_tls_close_notify_wrap, nc_server_tls_handshake_step_wrap, nc_client_tls_handshake_step_wrap", "src/session_openssl.c: nc_tls_read_wrap, nc_tls_write_wrap, nc_tls_close_notify_wrap, nc_server_tls_handshake_step_wrap, nc_client_tls_handshake_step_wrap", "src/io.c: nc_read, nc_write, nc_session_is_connected"])
p("Writing does not kill the process",
  "Writing to a session whose peer is gone never raises SIGPIPE.",
  "all transports, states of the connection, sequences of results",
  "needs a peer that closes at any moment",
  ["src/io.c: nc_read, nc_write, nc_session_is_connected", "src/session_mbedtls.c: nc_server_tls_send, nc_server_tls_recv, nc_tls_read_wrap, nc_tls_write_wrap, nc_tls_close_notify_wrap, nc_server_tls_handshake_step_wrap, nc_client_tls_handshake_step_wrap", "src/session_openssl.c: nc_tls_read_wrap, nc_tls_write_wrap, nc_tls_close_notify_wrap, nc_server_tls_handshake_step_wrap, nc_client_tls_handshake_step_wrap"])

p("A failed SSH connection leaves nothing",
  "If nc_connect_ssh(), nc_connect_libssh() or an SSH Call Home fails, everything made for it and the SSH session and socket it was given are released: no memory, socket or channel stays.",
  "all failures of the system, the memory, libssh and the peer, at every step",
  "needs a failure at every step, with the allocations counted",
  ["src/session_client_ssh.c: open_netconf_channel, _nc_connect_libssh, nc_connect_ssh, nc_accept_callhome_ssh_sock", "src/session.c: nc_session_free, nc_session_free_transport"])
p("SSH connections end nothing twice",
  "However nc_connect_ssh(), nc_connect_libssh() and SSH Call Home run, nothing is released twice, released before it was made, or made while it exists.",
  "all runs, successful or not",
  "needs a failure at every step",
  ["src/session_client_ssh.c: open_netconf_channel, _nc_connect_libssh, nc_connect_ssh, nc_accept_callhome_ssh_sock", "src/session.c: nc_session_free, nc_session_free_transport"])
p("An SSH session owns what was made for it",
  "When connecting over SSH succeeds, what exists is exactly what the session refers to: the SSH session, its socket and channel, its own context, host and user; buffers are gone.",
  "all successful runs",
  "needs all combinations of options",
  ["src/session_client_ssh.c: open_netconf_channel, _nc_connect_libssh, nc_connect_ssh, nc_accept_callhome_ssh_sock"])
p("A channel that is not opened does no harm",
  "If nc_connect_ssh_channel() fails, the sessions on the SSH connection are as before: the ring is the same and their lock is free.",
  "all rings of sessions, all failures",
  "needs a server that refuses a second channel",
  ["src/session_client_ssh.c: nc_connect_ssh_channel", "src/session.c: nc_session_free, nc_session_free_transport", "src/session.c: nc_session_io_lock"])
p("A new channel gives a session like the first",
  "If nc_connect_ssh_channel() succeeds, the new session is in the ring after the one given, the others stay, the lock is free, and host and user are those of the first; it never is undefined behaviour.",
  "all rings of sessions, all runs",
  "needs rings of any size",
  ["src/session_client_ssh.c: nc_connect_ssh_channel"])
p("No NETCONF before authentication",
  "No hello is sent over SSH before connect_ssh_session() accepted the host key and authenticated (unless the caller gave a connected SSH session) and the server accepted the subsystem.",
  "all runs",
  "needs all interleavings of failures",
  ["src/session_client_ssh.c: open_netconf_channel, _nc_connect_libssh, nc_connect_ssh, nc_accept_callhome_ssh_sock"])
p("The user who logs in is the documented one",
  "The user who logs in is the one set in the SSH session, else the one of the options, else that of the effective user (session_client.h).",
  "all users, options, runs",
  "needs setuid programs",
  ["src/session_client_ssh.c: open_netconf_channel, _nc_connect_libssh, nc_connect_ssh, nc_accept_callhome_ssh_sock", "src/session_client.h: nc_connect_libssh"])

p("Opening a channel ends in time",
  "Opening an SSH channel with the NETCONF subsystem ends once the time is over; it succeeds exactly if both requests were answered in time and not refused, and says so if the time was over.",
  "all sequences of answers",
  "needs a server that answers late or never",
  ["src/session_client_ssh.c: open_netconf_channel"])

p("The server's own YANG context",
  "When nc_server_init_ctx succeeds, *ctx has ietf-netconf implemented with all its features and ietf-netconf-monitoring, keeping the other modules of a context the caller gave; a context that has them all is left alone; when it fails, a context of the caller is neither destroyed nor lost, and one the function created is destroyed and *ctx is NULL.",
  "all contexts, all results of loading",
  "needs libyang to fail at each load",
  ["src/session_server.c: nc_server_init_ctx"])
p("The YANG modules of the configuration",
  "When nc_server_config_load_modules succeeds, every module of a server configuration is implemented in *ctx with its own supported features and nothing else in the caller's context is lost; its tables are read within their bounds; when it fails, a context of the caller survives and one it created is destroyed.",
  "all contexts, all results of loading",
  "needs libyang to fail at each load",
  ["src/server_config.c: nc_server_config_load_modules"])
p("User data of callbacks not used after being freed",
  "However a server is initialised, destroyed, given callbacks and used, no user datum of a callback is freed twice or passed to a callback after being freed.",
  "all sequences of API calls",
  "needs the library to be initialised again after nc_server_destroy",
  ["src/session_server.c: nc_server_destroy", "src/session_server.c: nc_server_set_content_id_clb", "src/session_server_ssh.c: nc_server_ssh_set_interactive_auth_clb"])
p("User data of callbacks freed",
  "Each datum given with a freeing callback has been freed once nc_server_destroy returned.",
  "all sequences of API calls",
  "needs callbacks set repeatedly",
  ["src/session_server.c: nc_server_destroy", "src/session_server.c: nc_server_set_content_id_clb"])
p("What nc_server_init leaves",
  "nc_server_init sets up every lock and library or fails, in which case nothing stays set up; the rwlock attribute is destroyed exactly once if it was initialised.",
  "all combinations of failing calls",
  "needs pthread, libcurl or libssh initialisation to fail",
  ["src/session_server.c: nc_server_init"])
p("Nothing initialised twice",
  "When a server is initialised and destroyed in turns, no lock or library is initialised while initialised or destroyed while not.",
  "all sequences of API calls with successful initialisations",
  "needs repeated life cycles and locks that notice",
  ["src/session_server.c: nc_server_init", "src/session_server.c: nc_server_destroy"])

p("Configuration of the server goes where the schema says",
  "Every node of ietf-netconf-server, with whatever keys above it, is stored in (or removed from) its own member of the object its list keys name: the listening endpoint, the Call Home client and endpoint, the host key, user, public key, certificate or mapping. No handler fails to find its place or walks past the root of the tree, although handlers are chosen by the name of the node alone and tell places apart by counting parents.",
  "all nodes of the schema with the features the library enables, all key values",
  "names such as public-key, certificate and host-key occur at up to six places each; a test covers the places it configures",
  ["src/server_config.c: nc_server_config_parse_netconf_server", "src/server_config.c: equal_parent_name", "src/server_config.c: nc_server_config_get_ssh_opts", "src/server_config.c: nc_server_config_certificate", "src/server_config.c: nc_server_config_public_key"])
p("Keystore and truststore go where the schema says",
  "The same for ietf-keystore and ietf-truststore.",
  "all nodes of both schemas, all key values",
  "as C219",
  ["src/server_config_ks.c: nc_server_config_parse_keystore", "src/server_config_ts.c: nc_server_config_parse_truststore"])
p("No two nodes share a member",
  "Two nodes of a configuration that are stored in the same member of the same object are the same node, unless one belongs to SSH and the other to TLS of one endpoint, which the schema excludes; nodes of listening and of Call Home never meet.",
  "all pairs of nodes, all key values",
  "needs all pairs of nodes",
  ["src/server_config.c: nc_server_config_parse_netconf_server"])

p("A reply is read as the output of the operation that was sent",
  "For every request nc_send_rpc() sends, nc_recv_reply() reads the reply as output of the same operation of the same module: of the request functions of the library, of a tree with one operation anywhere in it, and of a text.",
  "all requests, all module sets, all trees",
  "the two functions have separate tables of 24 operations; a wrong entry shows only with a reply that carries data",
  ["src/session_client.c: recv_reply_dup_rpc", "src/session_client.c: nc_send_rpc", "src/session_client.c: nc_recv_reply"])
p("The caller gets every tree of a reply to a request that was sent",
  "After nc_recv_reply() for a request that nc_send_rpc() sends, every tree made on the way is freed or in the caller's two variables; the envelope is set exactly for a reply, the operation exactly if the reply has data.",
  "all requests that are sent, all replies, all failures of libyang",
  "leaks depend on combinations of failures",
  ["src/session_client.c: nc_recv_reply", "src/session_client.c: recv_reply", "src/session_client.c: recv_reply_dup_rpc"])
p("Waiting for replies frees every tree once",
  "While the client waits for the data or the schemas of the server, every tree it receives is freed exactly once, whatever replies and notifications come in between.",
  "all sequences of replies, notifications, timeouts and failures",
  "needs a server that answers with foreign message-ids",
  ["src/session_client.c: get_oper_data", "src/session_client.c: retrieve_module_data_getschema"])

p("A TLS server presents the certificate configured for the endpoint",
  "The certificate and the private key of a connection are both those written at the endpoint, or both of the keystore entry it names, the certificate under the name it names; with names as keys there is one such pair, and if it can be read the connection is set up with it.",
  "all configurations, all keystores, all behaviours of the TLS library",
  "needs keystores with several entries that have certificates of the same name",
  ["src/session_server_tls.c: nc_server_tls_load_server_cert_key", "src/session_server_tls.c: nc_server_tls_ks_ref_get_cert_key"])
p("Clients are checked against exactly the configured authorities",
  "The store of trusted authorities of a TLS connection has exactly the certificates of the endpoint followed by those of the endpoint it references, each read from its own data; if one cannot be read the connection is refused.",
  "all configurations, truststores and references",
  "needs combinations of local and referenced certificates",
  ["src/session_server_tls.c: nc_accept_tls_session", "src/session_server_tls.c: nc_server_tls_load_trusted_certs", "src/session_server_tls.c: nc_server_tls_truststore_ref_get_certs"])
p("Without certificates to check clients there is no TLS connection",
  "If neither the endpoint nor the one it references has authorities or end entity certificates, no TLS connection is set up.",
  "all configurations",
  "the count is added up from functions that return errors as counts",
  ["src/session_server_tls.c: nc_server_tls_get_num_certs", "src/session_server_tls.c: nc_accept_tls_session"])
p("Setting up a TLS connection loses no certificate",
  "If loading certificates fails at any point, everything made before is freed once; if not, nothing is freed and the connection has all of it. Nothing undefined happens if the configuration names everything it refers to.",
  "all configurations, all failures of the TLS library",
  "needs failures in the middle of lists",
  ["src/session_server_tls.c: nc_accept_tls_session", "src/session_server_tls.c: nc_server_tls_load_trusted_certs"])

p("Messages are printed whole, once, and only up to the level set",
  "Over any history of nc_verbosity(), nc_set_print_clb_session() and messages, exactly the errors and the messages of a level not above the last one set are printed, in order, each once and whole, to the callback or to stderr with the label of its level and the id of its session; one for which there is no memory or that cannot be formatted is left out, never cut. All memory is released.",
  "all histories, all texts shorter than 2^31-1 bytes, all failures of memory",
  "the buffer is grown only for long texts and only when memory is there",
  ["src/log.c: prv_vprintf", "src/log.c: nc_verbosity", "src/log.c: nc_set_print_clb_session"])
p("Printing a message is always defined",
  "Whatever the text of a message, printing it does nothing undefined.",
  "all histories, texts of any length",
  "needs a text of 2 GiB",
  ["src/log.c: prv_vprintf"])
p("A report of supported algorithms is complete or absent",
  "Each of the four calls that report the supported SSH algorithms returns 0 and a tree with all its values in order, which is the caller's, or an error and no tree, with everything made on the way released.",
  "all failures of memory and of libyang at any point, any lists",
  "needs a failure at each step",
  ["src/server_config.c: nc_server_config_oper_get_algs", "src/server_config.c: nc_server_config_oper_get_hostkey_algs", "src/server_config.c: nc_server_config_oper_get_kex_algs", "src/server_config.c: nc_server_config_oper_get_encryption_algs", "src/server_config.c: nc_server_config_oper_get_mac_algs"])
p("The algorithms reported are identities of the YANG modules",
  "Each value reported is an identity of the module or of libnetconf2-netconf-server that is derived from the base of the leaf-list, none is there twice, and no algorithm of libssh with such an identity is missing; so the calls succeed whenever libyang takes the identities of its modules.",
  "all four reports",
  "the lists are literals that no compiler checks against the YANG modules",
  ["src/server_config.c: nc_server_config_oper_get_algs"])
p("A reported algorithm can be configured",
  "Any of the algorithms a server reports, configured in any order, are given to libssh under the names of the SSH protocol, separated by commas.",
  "all selections of reported algorithms",
  "needs every identity tried against libssh",
  ["src/server_config.c: nc_server_config_transport_params", "src/server_config.c: nc_server_config_oper_get_encryption_algs"])

p("A Call Home connection is handled as asked for at its address",
  "Whatever addresses a client added and removed before, a connection it accepts arrived at a socket that is still open and goes to the client of the transport asked for at that socket, with the host name given there if it is TLS. nc_accept_callhome() returns 1 exactly if there is a session.",
  "all histories of adding, removing, arriving and accepting",
  "two arrays are kept in step by removals that move entries",
  ["src/session_client.c: nc_accept_callhome", "src/session_client.c: nc_client_ch_add_bind_listen", "src/session_client.c: nc_client_ch_del_bind"])
p("Call Home addresses of a client: nothing undefined happens",
  "No history of adding, removing and accepting does anything undefined.",
  "all histories, all failures of memory",
  "needs realloc() to fail",
  ["src/session_client.c: nc_accept_callhome", "src/session_client.c: nc_client_ch_add_bind_listen", "src/session_client.c: nc_client_ch_del_bind"])
p("Call Home addresses of a client are released",
  "At any time exactly what the client options own is there: of addresses removed, the socket, the address and the host name are released, once.",
  "all histories",
  "leaks are not observed by tests",
  ["src/session_client.c: nc_accept_callhome", "src/session_client.c: nc_client_ch_add_bind_listen", "src/session_client.c: nc_client_ch_del_bind"])
p("A Call Home connection is handed over or closed",
  "Each accepted connection is handed to one SSH or TLS client or closed, and of the listening sockets exactly those of the addresses present are open.",
  "all histories",
  "needs failures after accepting",
  ["src/session_client.c: nc_accept_callhome", "src/session_client.c: nc_client_ch_add_bind_listen", "src/session_client.c: nc_client_ch_del_bind"])

p("Copies of a client's certificates are freed once",
  "While mbedTLS verifies the chain of a client, whatever its certificates, whatever is found of each and whichever allocations or parsings fail, no freed memory is used, every loop ends, and every copy of a certificate made is freed exactly once, except one copy of the client's own certificate that the session keeps and that is kept whenever the client is accepted.",
  "all chains, all verdicts, all patterns of failures",
  "needs allocations to fail at each certificate of chains of any length",
  ["src/session_mbedtls.c: nc_server_tls_verify_cb", "src/session_mbedtls.c: nc_server_tls_append_cert_to_chain", "src/session_mbedtls.c: nc_tls_cert_dup", "src/session_mbedtls.c: nc_tls_cert_destroy_wrap"])
p("A failing allocation lets no client in",
  "A client accepted by a server built with mbedTLS, whichever allocations fail meanwhile, is one that would be accepted, under the same name, by looking at the list of its certificates; if none fails the outcome is the same for every client.",
  "all chains, options and patterns of failures",
  "needs allocations to fail inside a handshake",
  ["src/session_mbedtls.c: nc_server_tls_verify_cb", "src/session_mbedtls.c: nc_server_tls_append_cert_to_chain", "src/session_mbedtls.c: nc_tls_cert_dup", "src/session_mbedtls.c: nc_tls_cert_destroy_wrap"])

p("Methods offered to an SSH client",
  "An SSH client that has named a user of the endpoint and is not yet authenticated is offered, after each of its requests, exactly the methods configured for that user that it has not yet passed; for users of the system, all methods but none.",
  "all configurations, all sequences of requests",
  "needs every configuration and order of requests",
  ["src/session_server_ssh.c: nc_server_ssh_auth"])
p("What the sender of a message that cannot be parsed is told",
  "A message received by the server that cannot be parsed is answered by exactly the error that a table (the relation told) gives for the version of the session, the envelope and the complaint of the parser: its tag, its type and the names reported, in the envelope of the request if there is one; a client of :base:1.0 whose message has no envelope is not answered. The table has one entry for every message.",
  "all complaints of the parser",
  "needs every complaint with every shape of quoted names",
  ["src/session_server.c: nc_server_prepare_rpc_err", "src/session_server.c: nc_rpc_err_get_quoted_string"])
p("No malformed-message error to 1.0 clients",
  "The error malformed-message is not sent to clients that speak only :base:1.0 (RFC 6241 appendix A).",
  "all messages and sessions",
  "needs every unparsable message",
  ["src/session_server.c: nc_server_prepare_rpc_err", "src/session_server.c: nc_rpc_err_get_quoted_string"])

p("The end of the server releases its endpoints",
  "nc_server_destroy() frees every listening endpoint once and closes every listening socket once, configured endpoints and UNIX sockets of the application alike, whatever was added and removed before.",
  "all sequences of operations on endpoints",
  "needs every number and order of endpoints",
  ["src/session_server.c: nc_server_destroy", "src/server_config.c: nc_server_config_listen", "src/session_server.c: _nc_server_del_endpt_unix_socket"])
p("The killer of a session",
  "A session for which a killer is reported has been killed: its termination reason is that it was killed.",
  "all sequences of calls of the application and of nc_ps_poll()",
  "needs every order of the setters and of the events of the server",
  ["src/session_server.c: nc_session_set_term_reason", "src/session_server.c: nc_session_set_killed_by"])
p("Private keys that need a passphrase",
  "A private key added to the client is taken for encrypted exactly if the second line of its file has the word encrypted, in small or capital letters; a file without a second line is refused.",
  "all contents of files",
  "needs every content, with lines of any length and any bytes",
  ["src/session_client_ssh.c: _nc_client_ssh_add_keypair"])
p("Modules of the yang-library as listed",
  "The entry the client makes of a module of the server's yang-library has its name, its revision, its features in their order, and is implemented exactly if the library says so.",
  "all modules and orders of their children",
  "needs every order of children",
  ["src/session_client.c: build_module_info_yl"])

p("Capabilities that stand for features",
  "The server announces writable-running, candidate, confirmed-commit, rollback-on-error, validate, startup and xpath exactly if the features of ietf-netconf they need are enabled in its context, or if the application itself added them; confirmed-commit needs candidate too.",
  "all contexts, options of the server and versions asked for",
  "needs every set of features, in every order and with any other features",
  ["src/session_server.c: nc_server_get_cpblts_version", "src/session_server.c: add_cpblt"])
p("Capabilities that stand for modules",
  "Every implemented module of the YANG version asked for has exactly one entry with its namespace among the announced capabilities, it names the module and its revision unless something else uses that namespace; ietf-yang-library is announced with its revision and the identifier of the content.",
  "all contexts, options of the server and versions asked for",
  "needs every list of modules and every set of capabilities added by the application",
  ["src/session_server.c: nc_server_get_cpblts_version"])
p("Preferences of authentication methods",
  "After any calls that set preferences, each method has the value of its last call, or -1 if that was negative; a connection never tries a method disabled so, and tries enabled ones in the order of their values.",
  "all sequences of calls and all servers",
  "needs every order of calls and every behaviour of the server",
  ["src/session_client_ssh.c: nc_client_ssh_set_auth_pref", "src/session_client_ssh.c: nc_client_ssh_get_auth_pref", "src/session_client_ssh.c: connect_ssh_session"])
p("Memory of a listening endpoint",
  "Over any changes of the configuration of a listening endpoint, its address, options and socket are released exactly once, and the options are those of its transport.",
  "all sequences of changes, and all failures to listen",
  "needs every history of a configuration",
  ["src/server_config.c: nc_server_config_ssh", "src/server_config.c: nc_server_config_tls", "src/server_config.c: nc_server_config_local_address", "src/server_config.c: nc_server_config_local_port", "src/session_server.c: nc_server_set_address_port"])
p("Change of the transport of an endpoint",
  "A listening endpoint with an address never completes a change from SSH to TLS or back: whatever it went through and in whatever order the nodes come, the address is freed twice, a socket closed twice, options are taken for those of the other transport, or the change fails.",
  "all histories of the endpoint and all contents of the new container",
  "needs every history of a configuration",
  ["src/server_config.c: nc_server_config_del_ssh_opts", "src/server_config.c: nc_server_config_del_tls_opts"])

p("Revision of a submodule asked for",
  "When libyang asks for a submodule, the client asks the server for the revision that the server listed for that submodule of the including module, or for the revision given.",
  "all lists of modules, names and revisions",
  "needs every list of modules of a server",
  ["src/session_client.c: retrieve_module_data_imp"])
p("Tag and type of an error read back",
  "The tag and the type read from an rpc-error are those its first error-tag and first error-type name after RFC 6241 appendix A, and unknown otherwise.",
  "all trees of an rpc-error",
  "needs every text of the two elements and every other content",
  ["src/messages_server.c: nc_err_get_tag", "src/messages_server.c: nc_err_get_type"])
p("Idle timeout in force",
  "The idle timeout of the server is the one last configured, or 180 s if none is configured.",
  "all histories of the configuration",
  "needs every order of changes",
  ["src/server_config.c: nc_server_config_idle_timeout", "src/server_config.c: nc_server_config_listen", "src/server_config.c: nc_server_config_setup_data"])
p("Whole data and the intervals of certificate notifications",
  "After nc_server_config_setup_data() the intervals used for notifications about expiring certificates are those of the data.",
  "all histories of single intervals and all whole data",
  "needs every history of the configuration",
  ["src/server_config.c: nc_server_config_setup_data", "src/server_config.c: nc_server_config_fill_libnetconf2_netconf_server"])

p("Where imports are looked for",
  "While libyang fills the context of a client, an imported module or included submodule whose revision is given, or whose module the server listed, is looked for in local files, then asked of the server, then of the user's callback; if the revision is not known the server is asked before the local files; the search ends with the first source that has the data, and sources the client does not have are not asked.",
  "all servers, local files, callbacks and requests of libyang",
  "needs every combination of sources and answers",
  ["src/session_client.c: retrieve_module_data_imp"])
p("Submodules without a revision",
  "A submodule that the server lists without a revision is looked for neither in local files, nor on the server, nor with the user's callback.",
  "all lists of modules and all contents of the sources",
  "needs every list of modules",
  ["src/session_client.c: retrieve_module_data_imp"])
p("Whole data that are refused",
  "If nc_server_config_setup_data() fails, the Call Home clients are as before.",
  "all data and all configurations",
  "needs every configuration and every failing node",
  ["src/server_config.c: nc_server_config_setup_data"])

p("Threads never block each other for ever",
  "Any number of threads of the application that call any server functions in any order, Call Home threads, and the certificate notification thread never reach a state where all that are not finished wait for each other's locks or ends, and can always be brought to their ends, provided that callbacks call only: functions of poll sessions, of notification status, start and stop without waiting of certificate notifications; in addition new_session_cb: nc_server_ch_is_client, nc_server_ch_client_is_endpt, nc_connect_ch_client_dispatch; the authentication callbacks of nc_accept(): these and nc_session_free, nc_ps_clear; the certificate callback: anything but a waiting stop and nc_server_destroy.",
  "all numbers of threads, clients and sessions, all sequences of calls, all interleavings, both policies of read locks",
  "needs every interleaving of any number of threads",
  ["src/session_server.c: nc_server_ch_client_lock", "src/session_server.c: nc_ch_client_thread", "src/session_server.c: nc_accept", "src/server_config.c: nc_server_config_setup_diff", "src/server_config.c: nc_server_config_destroy_ch_client", "src/session.c: nc_session_free"])
p("Locks are given back",
  "On every way through the server functions, error ends included, a thread gives back only locks that it has, and has none when it ends.",
  "all threads, ways and interleavings",
  "needs every error path of every function",
  ["src/session_server.c: nc_server_ch_client_lock", "src/session_server.c: nc_ch_client_thread", "src/session_server.c: nc_accept", "src/server_config.c: nc_server_config_setup_diff", "src/server_config.c: nc_server_config_destroy_ch_client", "src/session.c: nc_session_free"])
p("What callbacks must not call",
  "For every callback and every server function that C259 does not allow there, there is an application whose callbacks call nothing but that function and that comes to a deadlock.",
  "all pairs of callbacks and functions",
  "needs the right interleaving for each pair",
  ["src/session_server.c: nc_server_ch_client_lock", "src/session_server.c: nc_ch_client_thread", "src/session_server.c: nc_accept", "src/server_config.c: nc_server_config_setup_diff", "src/server_config.c: nc_server_config_destroy_ch_client", "src/session.c: nc_session_free"])
p("The array of Call Home clients",
  "No two threads ever use the array of Call Home clients at the same time if one of them writes to it.",
  "as C259",
  "needs every interleaving",
  ["src/session_p.h: ch_client_lock", "src/server_config.c: nc_server_config_create_netconf_client", "src/server_config.c: nc_server_config_ch_del_client"])
p("Data of one Call Home client",
  "No two threads ever use the data of a configured Call Home client at the same time if one of them writes to them.",
  "as C259",
  "needs every interleaving",
  ["src/session_p.h: ch_client_lock", "src/session_server.c: nc_server_ch_client_is_endpt"])
p("Endpoints, keystore and truststore",
  "No two threads ever use the listening endpoints, the keystore and the truststore at the same time if one of them writes to them.",
  "as C259",
  "needs every interleaving",
  ["src/session_p.h: config_lock", "src/session_server.c: nc_connect_ch_endpt", "src/session_server_ssh.c: nc_server_ssh_ts_ref_get_keys", "src/session_server_tls.c: nc_server_tls_truststore_ref_get_certs"])

p("A stored key pair is a pair",
  "When a configuration is made from a private key file, and optionally a public key file, the private and the public key text stored are of one and the same key, the public one in the format asked for (SSH or SubjectPublicKeyInfo).",
  "all libraries' results, all files, both formats",
  "all keys and files",
  ["src/server_config_util.c: nc_server_config_util_get_asym_key_pair", "src/server_config_util.c: nc_server_config_util_pkey_to_ssh_pubkey", "src/server_config_util.c: nc_server_config_util_pkey_to_spki_pubkey"])
p("A public key file is stored as its key",
  "When a public key file is given, the public key stored is the key of that file in the format asked for: always for SubjectPublicKeyInfo, and for SSH if the file is PEM.",
  "all libraries' results, all files, both formats",
  "all keys and files",
  ["src/server_config_util.c: nc_server_config_util_get_asym_key_pair", "src/server_config_util.c: nc_server_config_util_pkey_to_ssh_pubkey", "src/server_config_util.c: nc_server_config_util_pkey_to_spki_pubkey", "src/server_config_util.c: nc_server_config_util_get_ssh_pubkey_file", "src/server_config_util.c: nc_server_config_util_get_spki_pubkey_file"])
p("Freeing a session waits for those who use it",
  "nc_session_free() waits in vain exactly once for each of: a thread handling an RPC of the session, a thread that has its message queue, a thread that has its transport, notification threads that do not stop, a Call Home thread that does not stop; so at most three times, and not at all if there is none of them.",
  "all sessions and results of locks",
  "needs every combination of other threads",
  ["src/session.c: nc_session_free", "src/session.c: nc_session_free_transport"])

p("Threads on one pollsession do not use freed memory",
  "Whatever threads add, poll, remove, free and clear sessions of one pollsession structure, none of them uses an entry or a session that was freed before.",
  "all numbers of threads, all interleavings, all sessions and handlers",
  "needs every interleaving of threads",
  ["src/session_server.c: nc_ps_poll", "src/session_server.c: nc_ps_del_session", "src/session_server.c: nc_ps_clear", "src/session.c: nc_session_free"])
p("One thread at a time handles a session",
  "At no time do two threads handle RPCs of one session, whatever the application does with the structure and the sessions.",
  "all numbers of threads, all interleavings, all sessions and handlers",
  "needs every interleaving of threads",
  ["src/session_server.c: nc_ps_poll", "src/session_server.c: nc_ps_del_session", "src/session_server.c: nc_ps_clear", "src/session.c: nc_session_free"])
p("The end of a session is told once",
  "Of all calls of nc_ps_poll() in all threads at most one says that a given session has terminated, and none says so while an RPC of the session is being handled; sessions that are being handled are not freed.",
  "all numbers of threads, all interleavings, all sessions and handlers",
  "needs every interleaving of threads",
  ["src/session_server.c: nc_ps_poll", "src/session_server.c: nc_ps_del_session", "src/session_server.c: nc_ps_clear", "src/session.c: nc_session_free"])
p("A session is not used after it was freed",
  "If sessions are freed only after nc_ps_del_session() took them out of the structure, or by nc_ps_clear(), no thread uses one that was freed.",
  "all numbers of threads, all interleavings, all sessions and handlers",
  "needs every interleaving of threads",
  ["src/session_server.c: nc_ps_poll", "src/session_server.c: nc_ps_del_session", "src/session_server.c: nc_ps_clear", "src/session.c: nc_session_free"])

p("The callback of a request is the documented one",
  "Whatever functions the application sets and whenever, a request is handled by exactly one function: the one set last for its RPC or action; if there is none, the global one set last; if there is none, the default for get-schema and close-session; and if it is another operation it is answered with operation-not-supported.",
  "all schemas, all histories of setting functions and accepting sessions, all requests",
  "needs every order of calls",
  ["src/session_server.c: nc_server_init_cb_ctx", "src/session_server.c: nc_server_send_reply_io", "src/session_server.c: nc_set_global_rpc_clb", "src/netconf.h: nc_set_rpc_callback"])
p("Operations without defaults have the documented callback",
  "For all operations but get-schema and close-session a request is handled by the function set last for its RPC or action, wherever the action is in the data; if there is none, by the global one set last; if there is none, it is answered with operation-not-supported. Data with neither RPC nor action are handed to no function.",
  "all schemas, all histories of setting functions and accepting sessions, all requests",
  "needs every order of calls and every shape of data",
  ["src/session_server.c: nc_server_init_cb_ctx", "src/session_server.c: nc_server_send_reply_io", "src/session_server.c: nc_set_global_rpc_clb", "src/netconf.h: nc_set_rpc_callback"])

p("Waiting for an SSH client is limited",
  "While an SSH session is being accepted the server goes on waiting only as long as it was told to: for the key exchange and for the channel with the netconf subsystem less than the timeout of nc_accept_ssh_session() in milliseconds, for authentication less than auth-timeout seconds unless that is 0.",
  "all clients, messages, timeouts and clock readings",
  "needs clients that wait for hours",
  ["src/session_server_ssh.c: nc_accept_ssh_session", "src/session_server_ssh.c: nc_accept_ssh_session_auth", "src/session_server_ssh.c: nc_accept_ssh_session_open_netconf_channel"])
p("An SSH session has gone the whole way",
  "When nc_accept_ssh_session() reports success, the client was told that authentication succeeded for the user the session has, then that a channel is open, and the last thing it was told is that the subsystem netconf runs on that channel; in that order.",
  "all clients, messages and interleavings with waiting",
  "needs every sequence of SSH messages",
  ["src/session_server_ssh.c: nc_accept_ssh_session", "src/session_server_ssh.c: nc_accept_ssh_session_auth", "src/session_server_ssh.c: nc_accept_ssh_session_open_netconf_channel"])

p("Receiving a message is limited in time",
  "Once reading of a message began, the session is given up when the message is not there after 300 seconds, or when nothing comes for 20 seconds; it is not given up for the time otherwise.",
  "all peers, message lengths, sequences of reads and clock readings",
  "needs peers that send slowly for minutes",
  ["src/io.c: nc_read", "src/io.c: nc_read_until", "src/io.c: nc_read_msg_io"])
p("What waiting for a message reports",
  "nc_read_msg_poll_io() on a usable session takes the lock of the transport at most once and gives it back as the last thing; it returns 0 and leaves the session alone if the peer is silent, makes the session invalid with the reason dropped if the peer closed and with the reason other if the transport failed, and reads a message, once, exactly if there is something to be read.",
  "all transports, answers of poll() and libssh, timeouts, and changes of the session by other threads while the lock is waited for",
  "needs every combination of poll results, transports and races",
  ["src/io.c: nc_read_poll", "src/io.c: nc_read_msg_poll_io", "src/io.c: nc_read_msg_io", "src/session.c: nc_session_io_lock"])
p("Waiting for a message takes the timeout",
  "With a positive timeout it is known within that timeout (and a millisecond) whether there is a message to be read.",
  "all transports, timeouts, answers of poll() with interrupts, lock contention",
  "needs a thread that has the lock for nearly the timeout",
  ["src/io.c: nc_read_poll", "src/io.c: nc_read_msg_poll_io", "src/io.c: nc_read_msg_io", "src/session.c: nc_session_io_lock"])

p("A reply answers the request it is accepted for",
  "A request that nc_send_rpc() reports as sent arrives at the server whole and with the id reported; if the server finds an operation in it, its callback does not end the session and the transport takes the reply, there is exactly one reply, the one due for the operation, and it arrives at the client; nc_recv_reply() accepts it for that id and for no other. This holds for requests and replies without NUL, with 1.0 without the end-of-message marker, below 2 GB, and as long as there is memory and the ids do not wrap.",
  "all requests, replies, states of client and server, versions of framing, fragmentations by the transport, data before and after, and notifications read before",
  "joins both ends: every fragmentation and state of two programs",
  ["src/session_client.c: nc_send_rpc", "src/session_client.c: nc_recv_reply", "src/io.c: nc_write_msg_io", "src/io.c: nc_read_msg_io", "src/session_server.c: nc_ps_poll"])
p("Requests arrive once and in order",
  "If each of any number of calls of nc_send_rpc() reports the request as sent or the session as busy, the server reads exactly the requests reported as sent, each once, in the order of the calls, with the ids reported. Same limits for the content of requests.",
  "all sequences of requests, versions, fragmentations",
  "needs unbounded sequences",
  ["src/session_client.c: nc_send_rpc", "src/io.c: nc_write_msg_io", "src/io.c: nc_read_msg_io"])

p("Names of TLS clients are those of the YANG module",
  "If a cert-to-name entry takes the name from subject alternative names, the user name is the one that ietf-x509-cert-to-name gives to the first alternative name of that kind: an e-mail address with its host part in lower case, a DNS name in lower case, an IPv4 address as dotted quad, an IPv6 address as 32 lower-case hexadecimal digits; and there is no name exactly if there is no alternative name of the kind.",
  "all certificates, kinds of entries and both TLS libraries",
  "all certificates",
  ["src/session_server_tls.c: nc_server_tls_get_username", "src/session_openssl.c: nc_tls_get_san_value_type_wrap", "src/session_mbedtls.c: nc_tls_get_san_value_type_wrap"])
p("Both TLS libraries give the same name",
  "For the same alternative names a server with OpenSSL and one with mbedTLS give the same result, a user name, none or an error, also when memory runs out.",
  "all lists of alternative names, kinds of entries, failing allocations",
  "needs two builds and failing allocations at every place",
  ["src/session_server_tls.c: nc_server_tls_get_username", "src/session_openssl.c: nc_tls_get_san_value_type_wrap", "src/session_mbedtls.c: nc_tls_get_san_value_type_wrap"])

p("Only messages reported as sent arrive",
  "Whatever the transport does while messages are sent one after another, the peer reads exactly the messages that were reported as sent, in order; the beginning of a message whose sending failed is never read as a message or as part of one.",
  "all sequences of messages, both framings, all moments at which the connection ends or stops taking data, all fragmentations",
  "the connection can end at every byte",
  ["src/io.c: nc_write", "src/io.c: nc_write_msg_io", "src/io.c: nc_read_msg_io"])

p("Two programs using the library understand each other",
  "From the first byte on: each peer reads the hello of the other, both end with version 1.1 and the session id of the server; the server then reads, in the framing of 1.1, exactly the requests the client reports as sent, each once, in order and with the ids reported; the client reads exactly the replies and notifications the server reports as sent, in order. The change of the framing loses and adds nothing, however the transport cuts the bytes.",
  "all capabilities of the server, ids, sequences of requests and messages, fragmentations",
  "joins hello, change of framing and messages; every cut of the bytes",
  ["src/io.c: nc_send_hello_io", "src/session.c: nc_handshake_io", "src/io.c: nc_write_msg_io", "src/io.c: nc_read_msg_io", "src/session_client.c: nc_send_rpc"])

p("An mbedTLS wrapper that runs out of memory undoes what it did",
  "When an allocation or a step of the library fails while the random number generator, a private key, or the public numbers of an RSA or EC key are made, the call reports the failure, leaves nothing allocated, releases what the objects own and never releases an object that was not initialised; when it succeeds it leaves exactly the objects it returns.",
  "all patterns of failing allocations, all outcomes of the library calls, all states of memory",
  "needs a failure of each single allocation; undefined behaviour need not show",
  ["src/session_mbedtls.c: nc_tls_rng_new", "src/session_mbedtls.c: nc_tls_rng_destroy", "src/session_mbedtls.c: nc_tls_pem_to_privkey_wrap", "src/session_mbedtls.c: nc_tls_import_privkey_file_wrap", "src/session_mbedtls.c: nc_tls_get_rsa_pubkey_params_wrap", "src/session_mbedtls.c: nc_tls_get_ec_pubkey_params_wrap"])
p("The text of TLS errors holds every reason and stays in its buffer",
  "Whatever errors OpenSSL has queued, the text made of them for the log is all their reasons in order, separated by semicolons, and it is written within the memory reserved for it.",
  "all queues of errors, all patterns of failing allocations",
  "sizes depend on every reason; an overrun of a byte need not show",
  ["src/session_openssl.c: nc_tls_get_err_reasons"])

p("The reported host and port tell who connected",
  "The host and the port the server reports of an accepted connection are the address and the port of the client: two clients that are reported alike are the same.",
  "all clients of all address families, all ports, all systems whose inet_ntop() is faithful",
  "byte order and rendering over all ports and addresses; clients at one address must be compared",
  ["src/session_server.c: nc_sock_accept_binds", "src/session_server.c: sock_host_inet", "src/session_server.c: sock_host_inet6", "src/session_server.c: sock_host_unix"])
p("A connection that cannot be accepted is closed",
  "When the system, the memory or the address family prevents taking an accepted connection, it is closed and the caller gets nothing; otherwise the caller gets it open and non-blocking, with exactly the memory of the host it asked for.",
  "all failures of the calls involved, all address families, all choices of the caller",
  "each failing system call has to be provoked; a leaked socket does not show",
  ["src/session_server.c: nc_sock_accept_binds"])

p("The callbacks of a client",
  "After any calls of the setters, each connection asks for a password, an interactive answer or a passphrase through the callback set last for that purpose and for that kind of connection (direct or Call Home), with the pointer given with it, or through the one of the library if that was NULL or none was set; the getter returns just that; the check of the host key is done in the mode set last for that kind of connection.",
  "all histories of calls of the eight setters",
  "histories over six callbacks and two modes that must not influence each other",
  ["src/session_client_ssh.c: nc_client_ssh_set_auth_password_clb", "src/session_client_ssh.c: nc_client_ssh_ch_set_auth_password_clb", "src/session_client_ssh.c: nc_client_ssh_set_auth_interactive_clb", "src/session_client_ssh.c: nc_client_ssh_set_auth_privkey_passphrase_clb", "src/session_client_ssh.c: nc_client_ssh_set_knownhosts_mode", "src/session_client_ssh.c: nc_client_ssh_get_auth_password_clb"])

p("Growing buffers for MbedTLS end and keep nothing",
  "Exporting a private key, a public key or a point of an elliptic curve ends whatever MbedTLS answers and whenever memory runs out; if it fails, no memory is kept, and if it succeeds, exactly one block is, which MbedTLS was given with its true size and wrote without an error; no block is freed twice.",
  "all answers of MbedTLS for all sizes, all patterns of failing allocations",
  "answers of the library and allocation failures at every size cannot be provoked by tests",
  ["src/session_mbedtls.c: nc_tls_export_privkey_pem_wrap", "src/session_mbedtls.c: nc_tls_export_pubkey_pem_wrap", "src/session_mbedtls.c: nc_tls_ec_point_to_bin_wrap", "src/io.c: nc_realloc"])
p("Keys of every size are exported",
  "With enough memory, a key or point for which MbedTLS needs any number of bytes is exported as exactly what MbedTLS writes, in a buffer that is large enough and, if larger than the first one tried, less than twice as large as needed.",
  "all sizes up to 2^62 and all texts",
  "sizes between and beyond those of common keys",
  ["src/session_mbedtls.c: nc_tls_export_privkey_pem_wrap", "src/session_mbedtls.c: nc_tls_export_pubkey_pem_wrap", "src/session_mbedtls.c: nc_tls_ec_point_to_bin_wrap", "src/io.c: nc_realloc"])

p("What is known of the modules of a server is released entirely",
  "From any capabilities of the server, one entry is made for each that names a module, with its revision and all of its features; releasing them afterwards returns every block that was allocated, once, and no other, even if allocations fail in between.",
  "all lists of capabilities, all patterns of failing allocations",
  "patterns of failing allocations and every shape of capabilities",
  ["src/session_client.c: build_module_info_cpblts", "src/session_client.c: free_module_info", "src/io.c: nc_realloc"])

p("A session has the host keys of the configuration",
  "Setting up a session of SSH succeeds exactly if each configured host key has private data, its own or of the first key of that name in the keystore whose public key is not in the format of X.509, and libssh takes the file made of it; libssh is then given these keys, in the order of the configuration; no file stays behind if fdopen(), strdup() and unlink() work.",
  "all configurations, keystores and outcomes of the calls on files",
  "every combination of own and referenced keys, names that occur twice, and failures at any key",
  ["src/session_server_ssh.c: nc_ssh_bind_add_hostkeys", "src/session_server_ssh.c: nc_server_ssh_ks_ref_get_key", "src/session_server_ssh.c: nc_server_ssh_privkey_data_to_tmp_file"])

p("Cipher suites given to MbedTLS are those of the configuration",
  "Whatever cipher suites known to MbedTLS are created in the configuration, MbedTLS is given exactly their numbers, in order, ended by zero; those deleted are not given any more; no memory outside of the array is touched.",
  "all lists of suites, all sizes of blocks the allocator gives",
  "an overflow of a few bytes is hidden by the rounding of the allocator until there are more suites",
  ["src/session_mbedtls.c: nc_tls_append_cipher_suite_wrap", "src/server_config.c: nc_server_config_create_cipher_suite", "src/server_config.c: nc_server_config_del_cipher_suite"])
p("MbedTLS is asked for cipher suites by their names",
  "For each cipher suite of the configuration MbedTLS is asked for the name it has for it: in upper case, those of TLS 1.3 with the prefix TLS1-3-.",
  "all suites",
  "names of hundreds of identities",
  ["src/session_mbedtls.c: nc_tls_process_cipher_suite_wrap"])

p("Public keys of the configuration have the format their use asks for",
  "Whatever changes are applied, every public key kept for a host key or a user of SSH can be decoded and is not a SubjectPublicKeyInfo, and every one kept for the identity of a server of TLS is one; a key of the wrong kind is refused and changes nothing.",
  "all sequences of creating, replacing and deleting public keys and formats, all texts, all answers of the decoder and of the library, failing strdup()",
  "a test gives a key of each kind, not a text that cannot be decoded",
  ["src/server_config.c: nc_server_config_public_key", "src/server_config.c: nc_server_config_public_key_format", "src/session.c: nc_is_pk_subject_public_key_info"])

p("Adding a UNIX socket endpoint survives a lack of memory",
  "Whatever allocations fail while UNIX socket endpoints are added and deleted, no call accesses freed memory or NULL, and an addition that fails leaves the endpoints as they were; all blocks are those of the endpoints there are.",
  "all sequences of additions and deletions, every choice of failing allocations, failing listening",
  "allocations do not fail in tests",
  ["src/session_server.c: nc_server_add_endpt_unix_socket_listen", "src/session_server.c: _nc_server_del_endpt_unix_socket", "src/session_server.c: nc_server_del_endpt_unix_socket", "src/io.c: nc_realloc"])

p("The transport of a listening endpoint can be changed",
  "Whatever is configured for a listening endpoint, its transport can be changed from SSH to TLS or back: no memory is freed twice or taken for another type, only own sockets are closed, and after the removal of the endpoint nothing is left of it.",
  "all sequences of addresses and ports, both orders of the new and the old container, descriptors other parts of the process open, failing strdup() and listening",
  "tests create endpoints but do not change their transport; a double free may go unnoticed",
  ["src/server_config.c: nc_server_config_ssh", "src/server_config.c: nc_server_config_tls", "src/server_config.c: nc_server_config_del_ssh_opts", "src/server_config.c: nc_server_config_del_tls_opts", "src/server_config.c: nc_server_config_local_address", "src/server_config.c: nc_server_config_local_port", "src/session_server.c: nc_server_set_address_port"])

p("Quoted names are read from the complaints of the parser",
  "The text quoted as the n-th in a complaint of libyang is read exactly, nothing is read if there are fewer, and nothing outside of the complaint is read.",
  "all texts shorter than 2^32-1 bytes, all indices below 2^31-1",
  "complaints contain what clients sent, including quotation marks",
  ["src/session_server.c: nc_rpc_err_get_quoted_string"])
p("The node of a complaint is found without its attribute",
  "For every schema path of an error the node asked for is that of the path, without its last step if this is an attribute; the name of the attribute is what follows the last colon; NULL is not read.",
  "all paths",
  "paths are made by libyang from what clients sent",
  ["src/session_server.c: nc_rpc_err_find_lysc_node", "src/session_server.c: nc_server_prepare_rpc_err"])

p("Notifications are sent only to subscribed sessions",
  "Whatever the threads do, a notification is written to a session only while the session has a subscription; it is one given to nc_server_notif_send(), written by one thread at a time and at most once; without any subscription, or after the end of the session, calls write nothing; what is written whole is reported as sent unless the session ends meanwhile, and nothing is reported as sent of which nothing was written.",
  "all interleavings of any number of threads calling nc_server_notif_send(), changing the number of subscriptions and ending the session",
  "races between the check and the lock",
  ["src/session_server.c: nc_server_notif_send", "src/session_server.c: nc_session_get_notif_status", "src/io.c: nc_write_msg_io"])

p("Downloaded CRLs are read from written memory",
  "For every sequence of downloads, of pieces given by curl and of failures to allocate memory, the parser of CRLs is given only bytes that were downloaded, and no memory is freed twice.",
  "all lists of downloads, all lists of pieces including empty ones, memory or none at every piece",
  "failed allocations and empty pieces between several distribution points",
  ["src/session.c: nc_session_curl_cb", "src/session.c: nc_session_curl_fetch", "src/session.c: nc_session_tls_crl_from_cert_ext_fetch", "src/io.c: nc_realloc"])

p("Writing a reply shows all of it and keeps it",
  "For every reply and every envelope of an RPC, the tree printed has prefix, namespace and attributes of the envelope and all nodes of the reply in their order; afterwards the reply has the nodes it had, none of them is freed, and NULL is not read.",
  "all replies with any number of nodes or errors, with or without an envelope, all failures of libyang to make or print nodes",
  "the nodes are moved to another tree and back",
  ["src/io.c: nc_write_msg_io", "src/messages_server.c: nc_server_reply_add_err"])

p("Hashes of system users are read from memory that is there",
  "For all entries of the databases of users and of shadow passwords, whatever they need, and whatever allocation fails, nc_server_ssh_get_pwd_hash() ends, uses no memory that was freed or overwritten by another entry, frees its buffer, and gives the hash of the user's entry unless there is no memory.",
  "all entries of any size, all patterns of available memory",
  "entries larger than the buffer, memory that is short",
  ["src/session_server_ssh.c: nc_server_ssh_getpwnam", "src/session_server_ssh.c: nc_server_ssh_getspnam", "src/session_server_ssh.c: nc_server_ssh_get_pwd_hash"])

p("A server with mbedTLS uses only configured TLS versions",
  "After every sequence of changes of the configured TLS versions that leaves some, sessions of a server built with mbedTLS can use exactly the configured versions among those that mbedTLS has.",
  "all sequences of changes, all default ranges of the library",
  "combinations of versions, one of two libraries",
  ["src/session_mbedtls.c: nc_server_tls_set_tls_versions_wrap", "src/session_server_tls.c: nc_accept_tls_session", "src/server_config.c: nc_server_config_tls_version"])

p("CRLs that were fetched are used to verify peers",
  "With OpenSSL, a configuration that was set up trusts exactly the certificates of the store of certificates, knows exactly the CRLs of both stores and checks the whole chain against CRLs exactly if there is a store of CRLs. Where the certificates name distribution points of CRLs, a connection is set up only with these checks.",
  "all stores, all downloads, all failures of allocations and of the library",
  "needs failing allocations, revoked certificates and stores with objects of several kinds",
  ["src/session_openssl.c: nc_tls_move_crls_to_store", "src/session_openssl.c: nc_tls_setup_config_from_ctx_wrap", "src/session.c: nc_session_tls_crl_from_cert_ext_fetch"])

p("Why the certificate of a peer was refused is logged",
  "With mbedTLS, the string for the errors of a certificate has a line for every error in the order of the library, is written only inside of its buffer, and logging it is defined whatever the errors are.",
  "all combinations of errors, all tables of texts without a bit twice",
  "2^32 combinations of errors",
  ["src/session_mbedtls.c: nc_tls_get_verify_err_str", "src/session_mbedtls.c: nc_server_tls_verify_cb", "src/session_client_tls.c: nc_client_tls_connect_check"])

p("A server with OpenSSL uses only configured cipher suites",
  "After cipher suites were configured for an endpoint, its TLS sessions on a server built with OpenSSL can use only these: up to TLS 1.2 and with TLS 1.3 those of them that OpenSSL has.",
  "all lists of cipher suites, all sets of names the library has, all defaults",
  "combinations of suites and versions of the library",
  ["src/session_openssl.c: nc_server_tls_set_cipher_suites_wrap", "src/session_openssl.c: nc_tls_append_cipher_suite_wrap", "src/session_server_tls.c: nc_accept_tls_session"])

p("A client with mbedTLS trusts the CA certificates that were set",
  "If loading the CA certificates of a client built with mbedTLS succeeds, the client trusts exactly the certificates of the file and of the files of the directory, and all of them could be read.",
  "all files and directories, with any certificates that cannot be read",
  "all mixtures of readable and unreadable certificates",
  ["src/session_mbedtls.c: nc_client_tls_load_trusted_certs_wrap", "src/session_client_tls.c: nc_client_tls_session_new"])

out = os.path.join(os.path.dirname(os.path.dirname(os.path.abspath(__file__))), "properties.jsonl")
with open(out, "w") as f:
    for x in P: f.write(json.dumps(x) + "\n")
print(len(P))
