# Formal model of libnetconf2 — design

Source: `/repo` (CESNET/libnetconf2, pinned commit; read as text, never built).
Tool: Rocq/Coq 8.16.1, files in `rocq/theories`, logical prefix `Verif`.

## Trusted base

* Coq's kernel and the `coqc` that compiles the files.
* Axioms: whatever `Print Assumptions` prints under each theorem in the `Prop_*.v`
  files ("Closed under the global context" means none).  No axiom is added by us.
* The hand translation from C to Gallina.  Every definition cites file and lines;
  simplifications are named in the comment of the definition.
* External code (libyang, libssh, OpenSSL, libc, the kernel, pthreads) is not modelled.
  It appears as function arguments ("oracles") or as inputs of a step function that may take
  any value; where a theorem needs a fact about such code, that fact is a hypothesis of the theorem.
* Undefined behaviour is a distinct outcome (`UB…` constructors), never silently given a value.

## Conventions

* bytes = `list ascii`, `int`/`uintN_t` = `Z`/`N` with explicit wrap.
* One model file per C area, one or more proof files, one `Prop_*.v` file per area that contains the
  specification, the theorem statements, short proofs, a concrete `Example` beside each, and
  `Print Assumptions`.
* A property that is false of the code is stated as `…_refuted` (with a concrete witness) and the
  strongest true version is proved next to it.

## Plan per property

| id | modelled code | how proved |
|----|---------------|-----------|
| C01,C03 | io.c reader and writer, 1.1 | round trip by induction on chunks; reader over a fragmented stream |
| C02 | io.c `nc_read_until` automaton | exact characterisation; `_refuted` for payloads ending in a partial tag |
| C04 | io.c reader with sizes mod 2^32 / 2^64 and allocation sizes | safety for sizes < 2^32, `_refuted` for the rest |
| C05 | io.c 1.1 reader | RFC 6242 grammar as separate inductive spec; soundness refuted (strtoul), completeness proved |
| C06,C07 | io.c writer buffer | invariant over write sequences |
| C08,C09,C10 | session.c hello | decision functions, case analysis + induction on lists |
| C11 | accept paths | invariant over histories with 32-bit counter |
| C12 | session.c capability list | membership proofs |
| C13 | session_server.c queue ring | refinement to list FIFO, invariant over all schedules |
| C14 | pollsession array | refinement to multiset |
| C15 | nc_ps_poll scan | permutation of visited indices; bounded-bypass theorem |
| C16,C20 | recv rpc / poll / reply | decision-table model, all outcomes |
| C17 | idle check | refuted for the `now` argument used, positive for the check itself |
| C18 | term reasons | bit tests |
| C19 | rpc lock | transition system over threads |
| C21 | ClientMsgs.v (nc_send_rpc, nc_send_msg_io, io.c nc_write_msg_io for RPCs) | counter and wire, composed with the writer model; interleavings of threads as event lists |
| C22–C26 | ClientMsgs.v (get_msg_type, recv_msg, recv_reply, recv_reply_check_msgid, nc_recv_reply, nc_recv_notif, nc_session_cpblt) | reads are oracle results; lyd_parse_op is an argument; induction over call sequences |
| C27 | ModInfo.v (nc_client_ch_add_bind_listen, nc_client_ch_del_bind) | permutation reasoning |
| C28,C47,C50 | ModInfo.v (retrieve_module_data_imp decisions, build_module_info_cpblts, build_module_info_yl) | string search lemmas, order on revisions |
| C29–C31, C33 | SshAuth.v (nc_server_ssh_auth and its methods, channel open, subsystem, nc_session_ssh_msg) | invariant over all message histories |
| C32, C33, C48 | SshKeys.v (compare_password, get_pwd_hash, authorized_keys, compare_key) | case analysis, induction on lines and keys |
| C34 | SshKeys.v (path expansion with buffer sizes) | induction on the template |
| C35 | SshRing.v (ring insertion, nc_session_free_transport) at the level of pointers | ring invariant over all histories |
| TLS | session_server_tls.c 121-136, 240-647; session_openssl.c 246-382; session_mbedtls.c 86-107, 445-581 | `TlsNames.v`: mapping, callbacks of both libraries as functions; C36 in `Prop_TlsName.v` (first entry working for a certificate), C37 there, C38 in `Prop_TlsVerify.v` (all sequences of callbacks), C39 in `Prop_TlsHex.v` (memory block of digits), C51 in `Prop_TlsName.v`. Digests, certificate decoding, the user callback are parameters; certificates are records of DER, subject, issuer presence and alternative names. |
| Call Home | session_server.c 2797-3137 | `CallHome.v`: one round of the thread as a function of what it meets (connection result, configuration found at the next lock, running flag, time, rand()); C40 in `Prop_CallHome.v` against a specification over the history of tries; C41 against "next multiple of the period from the anchor"; C52 for the loop watching a session. Not modelled: sockets, nc_sock_connect(), the locks themselves. |
| CertExp, CertThread | session_server.c 3361-4110, server_config.c signals | calendar of UTC (days, months, leap years) with a proof that adding a period goes forward (year and month arithmetic by linear arithmetic, the 400 years of a period by computation); the times are compared with a separate schedule; the threads are a step function over events. Not modelled: decoding of certificates, collecting them from the configuration, XPaths, daylight saving time |
| Endpts, Refs, Accept | session_server.c 116-129, 526-663, 2197-2258, 2349-2483; server_config.c 668-740, 852-871, 979-1011, 1081-1165, 1348-1440, 2670-2880 | arrays with stale entries, blocks and sockets by number, every free and close recorded (C43, C54); bounded recursion with the bound quantified (C55); calls and arrivals as events, a measure that every call decreases (C56) |
| RpcSend, Prop_RpcSend (C72-C74) | session_client.c 2575-3197, messages_client.c 95-862: the checks of the constructors, the modules needed, each call of libyang in its order with `lyrc` and `break`; libyang is an oracle that takes or refuses each node; the generic request, copies and frees of the arguments left out | reading of a tree by module and name, written apart from the code; every operation by cases, lists by induction |
| Algs, Prop_Algs (C75-C80) | server_config.c 2447-2665, 3178-3480: the texts of algorithms and cipher suites as bytes, the search and the memmove of a removal with its reads before the text, the bits of versions and the options they become, the list of cert-to-name entries; allocation does not fail; setting the bind of libssh reduced to which option gets which text; mbedTLS cipher numbers left out | lists of names separated by a character; induction over the changes |
| Prop_Messages (C81-C83) | io.c 845-1082 as in IoWrite (rpc, rpc-reply, notification, hello), with the readers of IoRead and get_msg_type of ClientMsgs; libyang's printing is a list of pieces | the texts of the messages written out; composition of C01, C02 and C06; for C82 a measure: each attempt that takes bytes makes the wire longer |
| ClientSsh, Prop_ClientSsh (C84-C89) | session_client_ssh.c 449-610, 999-1156, 1170-1183, 1292-1560, 1873-1933: host keys, methods, key pairs, the lock of a further channel; libssh, callbacks and files are arbitrary answers | the trace of requests of a connection attempt; induction on keys, prompts, methods; for answers typed a relation on lines and words |
| TlsConn, Prop_TlsConn (C90-C93) | session_client_tls.c 235-495, session_server_tls.c 793-943, session.c 1569-1720, the wrappers of both TLS libraries used there: which step fails is arbitrary, the result is the trace of objects made and freed, the socket closed and settings made; CRL downloads as data and success | running traces on the set of live objects and on the settings in force; all paths by case analysis, handshakes and downloads by induction |
| (C94-C110) | no new model: the parts of earlier properties that hold without conditions, stated on their own; the theorems keep the names of those properties (C91, C20, C16, C18, C17, C10, C27, C43, C55, C39, C19, C15, C84, C83, C12, C25, C08) | as there |
| KeyFiles, Prop_KeyFiles (C111-C115) | server_config_util.c 203-219, 221-885 (keys and certificates from files), session.c 141-174, session_server_tls.c 102-119, session_server_ssh.c 58-118 and 1806-1850, session_openssl.c 864-905 with base64 itself; reading and writing of keys by OpenSSL, mbedTLS and libssh are functions given as arguments | base64, blobs and PEM as relations of RFC 4648, 4253, 5656, 4716 and 7468; induction on bytes and lines |
| CrlUris, Prop_CrlUris (C116-C118) | session_mbedtls.c 1556-1808 with mbedtls_asn1_get_len(), _get_tag(), _get_bool() and mbedtls_x509_get_subject_alt_name_ext() as in mbedTLS 3.6, session_openssl.c 1303-1374; buffers are lists of bytes, pointers offsets; names that are not URIs are parsed by a function given as argument | encodings of X.690 and RFC 5280 as relations on bytes; a weakest-precondition style predicate for safety, induction on fuel with the distance to the end |
| ChConf, Prop_ChConf (C119-C121) | server_config.c 38-98, 163-216, 480-562, 876-972, 1014-1196 (Call Home part), 1200-1672 (Call Home part), 3482-3844, 3847-3968 (Call Home part), 4143-4212, 4368-4502, session_server.c 3165-3220; trees of nodes with names, operations and values, arrays as lists with released entries marked; handlers of the contents of SSH and TLS options are an oracle; locks, memory exhaustion and the 16-bit counters are not modelled | a configuration as map from names to clients, a diff read as a list of edits; simulation between handlers and edits by induction over trees and histories |
| ChThread, Prop_ChThread (C122, C123) | session_server.c 2799-2879, 2891-2922, 2935-2949, 2958-2980, 2988-3162, 3165-3220; server_config.c 876-972, 3482-3508; a step function over the list of threads, the client, its thread pointer and the remover, one step per critical section; sessions, addresses and timing are nondeterministic choices | inductive invariants over all event lists, a rank for the end of a thread; executions as witnesses for the refutations |
| CtxFill, Prop_CtxFill (C124-C129) | session_client.c 354-785, 816-1024 (with ModInfo), 1100-1419, 1949-1964; the context as a list of modules, files, replies, callbacks and libyang as functions of the history of events; memory exhaustion, storing of retrieved modules in files, freeing of module data and log messages are not modelled | invariants of the log of events along the functions; frame lemmas for modules and flags; concrete worlds for the refutations |
| SockConn, Prop_SockConn (C130-C136) | session_client.c 1598-1798; session_server.c 2697-2787 and 3125-3130 (what happens to the socket); server_config.c 3567-3572, 884-887; sockets numbered by creation, the outcome of each system call is an argument; the addresses of a host do not change; source address, ports, the values of keepalives and nc_accept_*_session() (see TlsConn) are not modelled | the trace of what happens to sockets read by an independent automaton; invariant over all sequences of events |
| KsTs, Prop_KsTs (C137-C139) | server_config_ks.c, server_config_ts.c (all handlers), server_config.c 460-475, 538-562, 4143-4212 and the keystore and truststore parts of 4368-4502; arrays with their count and the entries left behind it; blocks of memory by number of the entry, a name or value that is replaced is not a block of its own; lyd_get_value and the nodes as in ChConf; allocation does not fail; asserts are failures | specification by edits on lists of names with leafs; a handler is one edit (induction over trees), arrays are the lists up to order; free list plus lists is a permutation of all entries; simulation of two runs |
| KbdInt, Prop_KbdInt (C140-C145) | session_server_ssh.c 658-967 (both builds, with and without PAM), 1308-1334, 1862-1909 | A PAM stack is an inductive tree of conversations and a return code; the client is a list of rounds with turns and a clock. Not modelled: failing allocations, the mutex of the PAM configuration, libssh below ssh_message_get() |
| NotifThr, Prop_NotifThr (C146-C149) | session_client.c 1967-1977, 2480-2573; session.c 855-874 | Step function over events of all threads; atomic operations on the flag and the counter are single steps. The results of receiving are arguments of the steps |
| ClientCtx, Prop_ClientCtx (C150, C151) | session_client.c 66-226 | One event is a call or one access to a counter; contents of contexts are keepalives, SSH preferences, the mode of known hosts and one number for the rest. Not modelled: failing allocations, pthread_once, the key destructor order |
| C152-C154 | SshConf, Prop_SshConf (uses KsTs, SshAuth) | the handlers of listen, endpoint, ssh, host-key (name), user, auth-timeout, password, none, use-system-auth on arrays with counts; entries have identities, freeing one twice or a dangling pointer is a distinct outcome. The diff is read by names into edits of a configuration; every step is a lemma, then induction over the tree and the calls. Not modelled: the other handlers (taken to succeed), references to other endpoints, TLS endpoints, public keys of users, failing allocations |
| C155-C158 | CfgBuild, Prop_CfgBuild | server_config_util.c 35-199 and 886-1366, all of server_config_util_ssh.c and server_config_util_tls.c: every function with its format strings; the text of a path is printed and read again by a parser and resolved in the schema. A tree is a list of paths with values; libyang's decisions on keys, values and implicit nodes are oracles. `does` says what each call is for; every call is shown to be a sequence of settings and removals of paths, whose effects are composed. Not modelled: failing allocations, the files and keys read before (KeyFiles), validation |
| C159-C163 | MsgMem, Prop_MsgMem | messages_client.c 44-862 all constructors of requests, 864-1047; messages_server.c 35-129, 738-821. Blocks of memory with an oracle for each allocation, fields never set are a distinct outcome; an invariant counts each block as freed, held, lost or not made. Not modelled: fields that are no pointers, the contents of strings (the checks of values are one boolean), nc_client_err_clean |
| C164-C169 | Prompt, Prop_Prompt | session_client_ssh.c 75-201, 234-322, 373-400, 448-612 with DNSSEC (on top of ClientSsh), 614-791. Terminals with settings, open files and buffers; every call of the system is an oracle; the length of the buffer is a number with the limit of its type. Not modelled: what is printed, bytes 0 typed, the resolver itself |
| C170-C173 | CertCfg, Prop_CertCfg | server_config.c 3968-4118, session_server.c 3295-3352, 3546-3763, 3806-3823, 3844-3872. The array with cells that may be uninitialised; XPaths are read by a separate reader (steps, predicates with a literal); certificates of the configuration are listed by a separate function. Decoding, allocation and the calendar (that of CertExp in two theorems) are oracles. Not modelled: locks (C53), white space and signs before numbers |
| C174-C179 | UnixSock, Prop_UnixSock | session_server.c 384-437, 2271-2347, 2418-2430, session_client.c 1485-1492, io.c 1098-1133. A file system of paths with sockets and permissions; each state between system calls is kept; numbers of sockets are their identity. Not modelled: symbolic links, other processes |
| C180-C188 | GetSchema, Prop_GetSchema, SchemaStore, Prop_SchemaStore | session_server.c 666-758 with Caps and ModInfo for announcement and request; session_client.c 354-424, 492-538, 562-574, 756-758. Contexts are lists of modules with submodules and flags; libyang's printers, search and the system are oracles; files are a function of resolved paths. Not modelled: the tree of the reply, symbolic links |
| C189-C193 | SessFree, Prop_SessFree | session.c 672-713, 722-847, 850-1022 as a list of uses and releases; locks, threads waited for, messages read and the state of the connection are the environment; the ring is a list (SshRing has its pointers). Not modelled: freeing of the nodes of <close-session> |
| C194-C198 | ClientOpts, Prop_ClientOpts | session_client_tls.c 43-190, session_client_ssh.c 205-228, 793-807, 999-1156, 1221-1256, session_client.c 283-304, 1999-2010 with a heap, allocations that fail and released memory; the pairs refine the lists of ClientSsh. Not modelled: callbacks of the options, the mode of known hosts, sockets listened on, libssh |
| C199-C204 | TransportIo, Prop_TransportIo | io.c 76-138, 518-558, 577-654, session_openssl.c 597-629, 938-1042, session_mbedtls.c 840-946, 1205-1287 over the loops of IoRead and IoWrite; results of the system and the libraries are inputs. Not modelled: the libraries, records of TLS kept between calls |
| C205-C211 | SshConn, Prop_SshConn | session_client_ssh.c 1562-1995, session.c 749-814, 840-843, 987-1021, io.c 1097-1131 as traces of what is made and ended; the ring and its lock. connect_ssh_session() is one step here (ClientSsh has it). Not modelled: libssh (ssh_get_fd() gives the socket after ssh_connect(), ssh_free() frees channels, NULL is accepted), a session freed by another thread meanwhile |
| C212 | SshConn, Prop_SshConn | session_client_ssh.c 1565-1630 |
| C213-C218 | ServerLife, Prop_ServerLife | session_server.c 176-255, 798-921, 974-982; server_config.c 4215-4302; session_server_ssh.c 970-984; libyang's loading of modules is a parameter with the stated assumption `loads_well` |
| C219-C221 | Route, Prop_Route | server_config.c 38-135, 138-459, 480-536, 1048-3957 (what the handlers decide from the place of a node), server_config_ks.c 40-130, 185-418, server_config_ts.c 40-210, 340-573; values, locks and the search among existing objects are not modelled here |
| C222-C224 | ReplyOp, Prop_ReplyOp | session_client.c 447-529 and 825-893 (the loops and what they free), 2197-2238, 2241-2432; RpcSend for what is sent; the parsing of replies is libyang's |
| C225-C228 | TlsLoad, Prop_TlsLoad | session_server_tls.c 38-100, 666-744, 770-858, 923-941, session.c 141-157, session_server.c 115-129; what OpenSSL and mbedTLS make of the data is an argument |
| C229, C230 | LogMsg, Prop_LogMsg | log.c 36-58, 72-130, log_p.h 45-49; vsnprintf() by its standard |
| C231-C233 | AlgReport, Prop_AlgReport | server_config.c 4528-4668, the identities of modules/iana-ssh-*.yang and libnetconf2-netconf-server.yang; with Algs (C75) |
| C234-C237 | ChClient, Prop_ChClient | session_client.c 1800-1937, with Accept (C56) for nc_sock_accept_binds(); strdup() succeeds; the SSH and TLS client a connection goes to are arguments |
| C238-C239 | TlsChain, Prop_TlsChain (uses TlsNames, Prop_TlsVerify) | session_mbedtls.c 249-265, 450-581, 701-728: the chain as a linked list in memory with free() of what is not in use a distinct outcome, and loops that may not end; refinement to the list of certificates of TlsNames. mbedtls_x509_crt_verify() calls the callback from the top down and stops at a failing call; mbedtls_x509_crt_free() follows its documentation |
| C240-C242 | Prop_SshOffer (model SshAuth), Prop_PsErr (model PsPoll) | session_server_ssh.c 1458-1562; session_server.c 1445-1581: invariant over requests of one user; table of complaints and answers |
| C243-C246 | Prop_EndptsEnd (model Endpts), Prop_KilledBy (PsPoll), Prop_Encrypted (ClientSsh), Prop_YlModule (ModInfo) | session_server.c 892-901, 131-160; session_client_ssh.c 1041-1062; session_client.c 945-974: three phases of the removal loop over an array with stale entries; invariant over calls; chunks of fgets(); last value of each kind |
| (tests) | Prop_Names | names shared by models and statements, spelled out; no claims |
| C247-C249 | Prop_HelloFeat (model Caps), Prop_Prefs (ClientSsh) | session_server.c 1061-1269; session_client_ssh.c 1170-1215: lists that only grow; last call of each method |
| C250-C251 | TiChange, Prop_TiChange | server_config.c 638-666, 825-850, 1101-1124, 1151-1160, 1200-1345, 1353-1440; session_server.c 2197-2258: memory as a partial map of blocks, sockets as a set; invariant over changes |
| C252-C253 | Prop_SubRev (model ModInfo), Prop_ErrRead (Err) | session_client.c 593-690; messages_server.c 475-505: search of the lists; tables of RFC 6241 written out |
| C254-C255 | WholeData, Prop_WholeData (with CertCfg) | server_config.c 978-1008, 1048-1081, 4143-4211, 4341-4502: fold over the history; invariant `holds` of Prop_CertCfg |
| C256-C257 | Prop_ImpOrder (models CtxFill, ModInfo) | session_client.c 593-690: events of the log; sources tried in order as an inductive relation |
| C258 | Prop_ChConf | server_config.c 4423-4502: the deletion precedes the data |
| C259-C264 | Locks, Prop_Locks | all blocking locks, thread creations and joins of session_server.c, server_config.c 478-516, 670-717, 912-976, 1013-1047, 2697-2802, 3483-3508, 3969-3990, 4085-4117, 4368-4500, session.c 955-987, session_server_ssh.c 970-1045 as texts with branches and loops; threads are lists of actions; progress by ranks of locks and joins (a Hoare logic over held locks), refutations by concrete ways. Not modelled: locks with a time limit, the data, reclaiming of memory (C122), nc_server_init |
| C265-C267 | KeyFiles, Prop_KeyPair, SessFree, Prop_FreeWait | server_config_util.c 839-884 with the functions it calls (C111-C114); session.c 722-1022 (C189-C193) | case analysis; counts over traces |
| C268-C271 | PsRace, Prop_PsRace | session_server.c 1225-1308, 1957-2195, session.c 850-1022 | steps of threads: adding, removing and clearing are one step under the lock of the structure (exclusive: C13), looking at one session is one step under both locks, handling an RPC is any number of uses of the session without the lock of the structure; invariants over all interleavings |
| C272-C273 | RpcClb, Prop_RpcClb | session_server.c 60, 773-796, 1663-1667, 1704-1750; netconf.h 49 | histories of calls; the spec speaks of the last calls in the history; induction on histories and on data trees |
| C274-C275 | SshWait, Prop_SshWait | session_server_ssh.c 1766-1803, 1862-1909, 1911-2012 | rounds of waiting with messages (SshAuth, C29-C33) and clock readings (Time, C44); induction on rounds |
| C276-C278 | IoTime, Prop_IoTime, ReadPoll, Prop_ReadPoll | io.c 57-170, 173-387 (times and locks), 388-516; session.c 424-451 | attempts to read with clock readings, log of what happened; answers of poll(), libssh and the mutex as arguments; deadlines as in C44 |
| C279-C280 | Prop_Exchange (no new model) | as C16, C21, C22, C81 | composition of client, framing and server; induction on the calls |
| C281-C282 | SanNames (+ TlsNames) | session_server_tls.c 278-327, session_openssl.c 411-487, session_mbedtls.c 608-698 | names as list, allocations as oracle; induction on the list |
| C283 | Prop_Broken (no new model) | as C06, C81 | strict prefixes of a framed message are not read as one: induction on chunks and calls |
| C284 | Prop_Meet (no new model) | as C08, C81, C280 | composition of hello messages, framing and requests |
| C285-C286 | TlsAlloc | session_mbedtls.c 117-167, 272-289, 361-392, 959-985, 1385-1531, session_openssl.c 913-936 | blocks raw or made, allocations as oracle; cases, induction on the queue |
| C287-C288 | AcceptHost | session_server.c 448-524, 597-660 | system calls as oracles; cases, injectivity of the decimal rendering |
| C289 | ClientCb | session_client_ssh.c 822-995, session_client.c 77-90, 163-189 | record of options, calls folded over it; induction on the history |
| C290,C291 | GrowBuf | session_mbedtls.c 1310-1332, 1355-1377, 1490-1517; io.c 1084-1095 | blocks with sizes; induction on the number of doublings left before 2^63 |
| C292 | MiMem | session_client.c 787-814, 1030-1098; io.c 1084-1095 | blocks in use as a permutation of those owned; induction on capabilities and features |
| C293 | HostKeys, KeyFiles | session_server_ssh.c 58-157, 1805-1860 | induction on the host keys |
| C294,C295 | MbedCiph | session_mbedtls.c 1822-1885, server_config.c 3401-3478 | array with the size of its block; induction on the suites; cases on bytes |
| C296 | KeyFmt | server_config.c 1727-1958, session.c 176-205 | one configuration of slots, step function over changes; invariant by induction on the changes; decoder and parser are arguments |
| C297 | EndptMem | session_server.c 2349-2483, io.c 1084-1095 | arrays as NULL/block/freed, blocks counted, oracle for each allocation; invariant by induction on the calls, one theorem for each failing allocation |
| C298 | TiSwitch | server_config.c 638-667, 824-874, 1126-1167, 1204-1258, 1279-1318, 1354-1448, session_server.c 2197-2258 | one endpoint with its bind, pointers as NULL/live/freed, open descriptors of the process; invariant by induction on the calls; that descriptors are new is a premise (kernel) |
| C299,C300 | ErrPath | session_server.c 1403-1478, 1555-1557 | pointers as indices; induction on the parts between quotation marks; equal to the text model of PsPoll |
| C301 | NotifSend, Notif | session_server.c 1669-1690, 3239-3294, io.c 846-877, 1021-1033, 1066-1082 | steps of threads; invariant over all event lists |
| C302 | CrlMem, TlsConn | session.c 1569-1617, 1685-1706, io.c 1084-1095 | cells that may be unwritten, realloc() of glibc; induction on downloads and pieces; equal to TlsConn where nothing fails |
| C303 | ReplyTree | io.c 917-1019 | lists of nodes, lyd_insert_child() as an argument (appending, or a permutation); by cases and induction on the nodes |
| C304 | PwBuf, SshKeys | session_server_ssh.c 482-614 | blocks with numbers and what is in them; size_t with wrap; induction on the rounds of enlarging; equal to get_pwd_hash of SshKeys |
| C305 | MbedVers, Algs | session_mbedtls.c 418-441, session_server_tls.c 866-871 | bits of versions after changes (C77); by cases |
| C306 | CrlMove, TlsConn | session_openssl.c 734-799, session.c 1651-1720 | stores as lists of objects with flags, oracle for memory; induction over the objects |
| C307 | VerInfo | session_mbedtls.c 175-195, 524-549, session_client_tls.c 235-257 | mbedtls_x509_crt_verify_info() over an arbitrary table of texts, room left in the buffer; induction over the table |
| C308 | CiphSet, Algs | session_openssl.c 1427-1434, session_server_tls.c 874-877 | names that OpenSSL has as parameters; what SSL_CTX_set_cipher_list() and SSL_CTX_set_ciphersuites() do with them is assumed as in CiphSet; text of the configuration (C79) split again |
| C309 | CaLoad | session_mbedtls.c 1022-1038 | files as lists of readable and unreadable certificates; mbedtls_x509_crt_parse_file() and mbedtls_x509_crt_parse_path() assumed as in CaLoad; induction over the files |
| Stores, Prop_Stores (C66-C71) | server_config.c 311-340, 366-417, 538-636, 740-776, 824-849, 1684-1960, 2021-2340, 2883-2970, 3107-3176 (the part of each handler that writes the unions of session_p.h 172-273); session_server_ssh.c 128-200, 1253-1271, 1492-1500, 1826-1836; session_server_tls.c 39-98, 517-535, 677-727: heap blocks, pointers and the union cells; lookups of the list entries above a node, locks, formats of keys and failing allocations left out | representation relation between memory and configuration, kept by each change; texts of host keys by a view with independent cells |
| PsLife, Prop_PsLife (C59-C61) | session_server.c 1188-1308, 2013-2195 together: add, delete, clear and poll in any order from nc_ps_new(); entries as a list, shown equal to the memory model PsSess (no failed allocation, fewer than 65535 sessions) | invariant on last_event_session, induction over lives, reuse of the theorems about one call |
| Err, Prop_Err (C45, C57, C58) | messages_server.c 131-745: nc_err, setters and getters; an error is the list of its children in order, texts are strings without NUL; libyang's dictionary and failed allocations are not modelled | table of RFC 6241 appendix A as separate spec; case analysis over tags, induction over the calls |

Status per property is in `MANIFEST.json`; findings are at the end of this file.

## Findings

Statements shown false of the modelled code (theorems `*_refuted`), and other defects met on the way.

Framing (io.c)
* The 1.0 reader forgets the start of the end marker after a partial match: a payload ending in `]` or
  `]]>` followed by the marker is never delivered (`c02_eom_round_trip_refuted`).
* The chunk size goes through `strtoul` without checks: `-1` and sizes of 2^32 and more lead to undefined behaviour
  or uninitialised data (`c04_*_refuted`), signs, leading zeros and white space are accepted, size 2^32-1 is refused (`c05_*_refuted`).
* A single write of nearly 2^32 bytes reorders output; a write error leaves the session usable and the message is reported
  sent (`c06_*_refuted`).

Hello (session.c)
* `parse_cpblts` compares using the length of the *received* text: `u` is taken for base 1.0, `u` twice for 1.1; a hello
  without `<capabilities>`, with another root, or an empty message is accepted by the server as 1.0 (`c08_versions_refuted`).
* A blank user capability is accepted by the setter and makes every client of this library fail (`c08_blank_capability_refuted`).
* A client may be handed a session that became invalid during context filling (`c10_client_running_refuted`).
* Session ids wrap to 0 after 2^32 attempts, failed ones included (`c11_wrap_refuted`).
* Capabilities differing only after `?` are dropped; with-defaults is omitted without additional modes; NC_WD_* are 1,2,3,4 but
  used as bits, so `trim` is listed when only `report-all` is configured (`c12_*_refuted`).
* Hello children that instantiate schema nodes are read as opaque nodes; a server hello without `<capabilities>` fails an
  assertion in the client (`c49_hello_safe_refuted`).

### Pollsession lock

- **The lock of a pollsession structure is not always exclusive** (`c13_mutex_refuted`). Queue ids are bytes. While
  one thread owns the structure, two others taking turns in queueing and giving up use up 255 ids; the next
  thread that queues gets the owner's id, finds it at the beginning, and owns the structure too. `nc_ps_poll()`
  holds the lock for its whole timeout and the other calls give up after 5 s, so a long poll is enough.

### Pollsession contents and polling

- **A failed allocation while adding a session corrupts the structure** (`c14_refuted`): the count is already increased and the
  array pointer already overwritten with NULL. Adding the 65536th session wraps the 16-bit count (`c14_limit_refuted`).
- **A session whose RPC lock keeps failing starves those after it** (`c15_refuted`): the error ends the call without moving the
  start of the next round.
- **Inactivity is measured at the end of the poll timeout** (`c17_early_refuted`): the deadline is passed as the current time, so a
  session that has just served a request is ended by a poll whose timeout is as long as the idle timeout. With an unlimited poll the
  deadline is uninitialised memory (`c17_unlimited_refuted`). A request is recorded with the time the poll began (`c17_arrival_refuted`).
- **Termination is misreported both ways** (`c18_report_refuted`): a killed session is reported with NC_PSPOLL_SESSION_ERROR by the next poll;
  a transport dropped while replying is not, since the reason is tested bitwise (DROPPED = CLOSED | KILLED).
- **A reply can be lost silently** (`c16_silent_refuted`), because the writer reports a message given up as sent; a callback that ends its
  own session gets no reply (`c16_suicide_refuted`); `x:message-id` of any namespace counts as message-id (`c16_foreign_refuted`).
- **A malformed frame is processed like a request** (`c20_absent_refuted`): after the error reply the code calls the sending function
  without an RPC, which fails with an argument error, and the time of the last RPC is renewed, so malformed frames keep a session from
  being inactive. On a 1.0 session an unparsable message has no consequence at all (`c20_v10_refuted`).

### RPC lock, time, subscription counter

- **The RPC lock has no owner** (`c19_foreign_unlock_refuted`): a thread that does not have it can unlock it, after which two threads
  process RPCs of one session; with nobody holding it, unlocking fails an assertion (`c19_unused_unlock_refuted`). An unlock that does not
  get the mutex within 500 ms goes on without it, and its signal may be lost (`c19_lost_wakeup_refuted`).
- **nc_poll() subtracts the elapsed time repeatedly** (`c44_early_refuted`, `c44_event_lost_refuted`): the start time is not renewed after an
  interruption, so after signals it returns early, even reporting a timeout although data is there.
- **Waiting for the client message lock lengthens the timeout** (`c44_msgs_lock_refuted`): the (negative) difference is subtracted.
- The remaining time is truncated to 32 bits (`c44_wrap_refuted`); the subscription counter wraps (`c46_wrap_refuted`).

### Client

- **Four bytes crash the client** (`c25_malformed_refuted`): `recv_msg()` handles the results 0 and -1 of `nc_read_msg_poll_io()` but not -2
  (malformed chunk); it goes on with a NULL message, `ly_in_memory(NULL)` returns NULL and `get_msg_type()` dereferences it.
- **The reported message id may be another thread's** (`c21_reported_id_refuted`): it is read after the IO lock was released. A send that
  fails in the final flush has already used up its id (`c21_failed_send_refuted`); the session is then unusable.
- **Message ids are compared as numbers read by strtoul()** (`c22_msgid_refuted`): "7-other" is the id 7.
- **A comment can change the type of a message** (`c24_comment_refuted`): `<!--><notification>-->` before a reply makes it a notification, since the
  end of the comment is searched from its second character. Prefixed root elements are rejected (`c24_prefix_refuted`), longer names accepted
  (`c24_longer_name_refuted`).
- **A message is lost when it cannot be put aside** (`c23_lost_refuted`): allocation failure; also one of neither type, or that cannot be parsed.
- **Capability lookup is by prefix** (`c26_lookup_refuted`).
- **Removing Call Home binds skips the entry moved into the gap** (`c27_left_over_refuted`).
- **The oldest revision of an import is retrieved** (`c28_newest_refuted`): the comparison is the wrong way round; two entries without revision make
  strcmp() be called with NULL (`c28_no_revision_refuted`). The entry remembered for submodules is the last one, not the chosen one.
- **Module list without terminator** (`c50_yl_terminated_refuted`): when the client adds the two notification modules itself, the enlarged array is
  not zeroed.
- **Parameters of module capabilities are searched in a fixed order and anywhere in the string** (`c47_order_refuted`, `c47_invented_refuted`).
- Submodules of the yang-library are never recorded: a list node has no value, so the "ignore empty nodes" test of line 949 skips them
  (parameter `counted` of the model; with a libyang returning a value for lists only the last one would be kept).

### SSH server

- **One method succeeds for two** (`c30_repeated_refuted`): only the number of successes is compared with the number of configured methods; the
  right password given twice authenticates a user for whom a password and a key are required.
- **Any signature state but "none" is taken** (`c33_signature_refuted`): whether a wrong signature reaches the code is left to libssh.
- **Keys shorter than 4 bytes are read past their end** (`c33_short_refuted`), as are keys whose type name is cut (`c33_cut_refuted`); a type name
  that is a prefix of a known one is taken for it (`c33_short_name_refuted`).
- **Path of the authorized keys**: an unknown token is kept (`c34_bad_token_refuted`), a % at the end dropped (`c34_lone_percent_refuted`).
- **authorized_keys**: an unterminated one-word last line loses all keys (`c48_last_line_refuted`); two blanks give an empty key
  (`c48_blanks_refuted`); a leading blank loses the key (`c48_leading_blank_refuted`); 65536 keys count as none (`c48_count_refuted`).
- **Endpoints referring to each other** make the lookup of an unknown user endless (`c29_cycle_refuted`); a reference to an endpoint of another
  transport reads the wrong member of the union.
- A starting session is freed together with the last running one even while it is being accepted (`c35_accept_refuted`).
- `nc_is_pk_subject_public_key_info()` returns -1 for undecodable data, which callers take for "yes".

### TLS server

- **A chain without known issuer is trusted** (`c38_unknown_issuer_refuted`): OpenSSL reports "unable to get (local) issuer certificate" at the top
  of the chain; nc_server_tls_verify_cert() does nothing at depth > 0 and returns success. The last call, for the client's certificate, is then a
  successful one (its signature by the unknown intermediate is right), and is taken for trusted. SSL_get_verify_result() is only printed.
- **Any other error at depth > 0 is ignored** (`c38_expired_authority_refuted`): expired, revoked, not a CA.
- **Names of the authority** (`c51_authority_refuted`): when the fingerprint of an entry is the authority's, the name is taken from the authority's
  certificate, so all its clients share it; RFC 7407 takes it from the client's. With mbedTLS an entry without fingerprint gives the name of the
  topmost certificate (`c51_mbedtls_refuted`).
- **Common name found by text search** (`c37_injected_refuted`, `c37_slash_refuted`): `O=CN=admin` before `CN=joe` gives admin. With mbedTLS the
  separator is wrong because of a misspelt macro, and the name is the rest of the subject (`c37_mbedtls_refuted`).
- **Alternative names are cut at a NUL byte** (`c36_nul_refuted`); they are not lower-cased as RFC 7407 wants.
- **A fingerprint of two digits is read past its end** (`c39_short_fingerprint_refuted`).
- **An undecodable configured end-entity certificate is compared as NULL** (`c38_undecodable_refuted`).
- Only one level of endpoint references is followed (`c36_one_reference`).

### Call Home

- **The anchored wait is the time since the last aligned moment, not until the next one** (`c41_anchor_refuted`, `c41_anchor_partial`); an anchor in
  the future gives a wrapped number (`c41_future_refuted`), a period of 0 divides by zero (`c41_zero_refuted`).
- **The attempt counter is not reset by a successful connection** (`c40_carried_refuted`), also when the next endpoint is another one; it is compared for
  equality only, so lowering the limit below it is missed until it wraps at 256 (`c40_lowered_refuted`).
- **A session established while the thread is told to stop is lost** (`c40_session_lost_refuted`): neither given to the user nor freed, and its context is
  not released.
- After a wait the client is looked up and `assert()`ed to exist.

### Certificate expiration notifications

- **The intervals are assumed to be in order but are in configuration order** (`c42_unsorted_refuted`): notifications are left out. Two anchors of different
  length can also give the same start, which is then notified twice (`c42_twice_refuted`).
- **A late thread computes times in the past** (`c42_late_refuted`) and sends a burst of notifications.
- **The signal is lost if it comes between the check of the running flag and the wait** (`c53_stop_refuted`, `c53_change_refuted`): a waiting stop then blocks
  until the next notification time (up to a year without certificates); a change is not noticed until then. pthread_cond_clockwait() has no predicate.
- **The intervals are used without the lock** (`c53_intervals_refuted`): a configuration change may have freed them.
- **A stop without waiting followed by a start can leave two threads** (`c53_two_threads_refuted`); a failed pthread_create() leaves the running flag set
  (`c53_failed_start_refuted`).
- An undecodable certificate anywhere in the configuration ends the thread; the flag stays set.

### Listening endpoints

- **Removing `listen` runs an index over an array that shrinks underneath it** (`c54_reference_refuted`, `c54_unix_refuted`): three SSH endpoints, the third
  referring to the second, give a double free; a UNIX socket endpoint of the application between two SSH ones is lost, and an endpoint whose memory is
  freed and whose socket is closed stays in use. nc_server_config_setup_data() removes `listen` first every time it is called.
- **The check for cycles of references does not end** if an endpoint refers into a cycle it is not part of (`c55_diverges_refuted`), with the configuration locked.
- **A refused change of a reference leaves a pointer to the name of the old endpoint** (`c55_pointers_refuted`); once that is removed, authentication reads freed
  memory.
- **A failed addition of a UNIX socket endpoint leaves it in the list** (`c43_failed_add_refuted`), without a socket; the name cannot be added again.
- **The configuration may create an endpoint under the name of a UNIX socket endpoint** (`c43_names_refuted`); the settings then go to the latter, whose options are
  replaced by ones of another type.
- **Port 0**, which the data model admits, ends the process by an assertion (`c43_port_zero_refuted`; not with NDEBUG).
- **A remembered event outlives the socket** (`c56_rebind_refuted`): after a change of the address nc_accept() may wait in accept() without regard to its timeout, with
  the configuration locked. A closed socket left in the bindings (removal of the `ssh` or `tls` container) makes nc_accept() fail instead of timing out
  (`c56_broken_refuted`).

### Errors of a server

- **A type that is none of the four is accepted for seven tags** (`c45_type_refuted`): the error is sent with an empty error-type.
- **error-app-tag and error-path come after error-message** (`c58_order_refuted`), which the schema of RFC 6241 does not allow.
- **The language of a message is that of the default one** (`c58_language_refuted`): nc_err_set_msg() ignores its language argument on errors of nc_err().

### Keys and certificates in unions

- use-system-keys has no effect when it is deleted, and the deletion of public-keys does nothing when the keys of the system are used: `store` stays NC_STORE_SYSTEM, and the user can go on authenticating with the keys of the system (c66_system_refuted).
- Deleting the truststore reference of a user, alone or with public-keys, leaves `store` at NC_STORE_TRUSTSTORE with ts_ref NULL. The method "publickey" is still offered, and any attempt, before authentication, calls strcmp(NULL, ...) if there is a bag (c66_reference_refuted).
- A change from a reference to keys in one edit: the list entries come before the reference in the schema. realloc() is then called with the name of the bag, and the deletion of the reference frees the new array and leaves the count (c66_order_refuted, c67_refuted).
- ca-certs and ee-certs: adding a certificate does not set `store` back to NC_STORE_LOCAL. After a deleted reference the array is used as the name of a bag, in whatever order (c68_refuted).
- Identity of a TLS server: pubkey_type and key_ref overlap. A change from a definition to a reference frees the number 1 (c70_switch_refuted); a change back writes the format into the pointer before it is freed, if the new nodes come first (c70_order_refuted).
- Host keys: after a change to a reference the texts stay allocated for ever (c67_hostkey_refuted); otherwise right in every order.

### Requests of a client

- get-data: CHECK_LYRC_BREAK is used in the loop over the filters of origins (session_client.c 2984-2987), where it only leaves the loop. If libyang refuses one (it is no identity of an origin), it and those after it are left out, and max-depth, with-origin or with-defaults set `lyrc` back to 0: the request is sent without the filter, so that it asks for the data of all origins or of fewer than those named (c72_refuted, c72_all_refuted). The loop over excluded-change is not affected, since nothing follows it.
- nc_rpc_modifypush_periodic() does not check its period, unlike nc_rpc_establishpush_periodic() (c73_period_refuted).

### Algorithms, versions and cert-to-name

- nc_server_config_delete_substring() moves the rest of the text without its terminating NUL. A removal of any algorithm but the last leaves a text of the same length: removing hmac-sha1-96 from "hmac-sha1-96,hmac-sha1" changes nothing and succeeds (c75_kept_refuted), other removals leave names nobody knows (c75_lost_refuted). In general no such removal gives the list without the algorithm (c75_never).
- Removing the only algorithm reads the byte before the text (c75_only), and so does removing one if a longer name at the start of the text begins with it (c75_before_refuted).
- The lists are ordered-by user, but insertions and moves are appended (c75_order_refuted): a moved algorithm is there twice, the order of preference stays.
- Only the options of libssh for what the server sends are set (SSH_BIND_OPTIONS_CIPHERS_S_C, SSH_BIND_OPTIONS_HMAC_S_C): a client may send with any cipher and MAC libssh has (c75_direction_refuted).
- Removing a cipher suite fails always with OpenSSL, since it is stored in another spelling than it is searched in (c76_never); the configuration stays half applied.
- Versions become a least and a greatest one: 1.0 and 1.2 configured accept 1.1 (c77_gap_refuted). With mbedTLS and only 1.0 or 1.1 configured nothing is set, and the versions of the library are accepted (c77_mbedtls_refuted).
- No function takes over a changed map-type or name of a cert-to-name entry: certificates go on giving the old user name, for instance "root" (c78_map_refuted, c78_name_refuted).

### Messages of the library

- The time of a notification is a text of the application (nc_server_notif_new() does not check it) and is written as it is: with "]]>]]>" or "<" in it the client reads another message (c81_time_refuted).

### SSH client

- If the server would take a key, but the private key cannot be read (missing file, wrong passphrase) and no later key is tried, connect_ssh_session() returns success without being authenticated, and methods left are not tried (c84_connected_refuted).
- A password or a key with the preference 0 is never tried, though "negative values disable the method" (c87_all_refuted).
- nc_client_ssh_add_keypair() adds the pair before it looks into the private key; if that has fewer than two lines, the call fails and the pair stays (c88_failed_refuted). Given paths are compared with stored real paths, so that a pair given by relative paths can be added again (c88_twice_refuted). Only the second line of a private key is searched for "encrypted": keys in PKCS #8 are not noticed (c88_encrypted_refuted).
- nc_client_ssh_del_keypair() and nc_client_ssh_get_keypair() do not refuse a negative index (c88_index_refuted).
- nc_connect_ssh_channel() does not release the I/O lock if the channel cannot be opened: no session of the connection can be used any more (c89_refuted).

### TLS connections

- nc_client_tls_session_new() forgets the socket before the handshake and does not close it if the handshake fails (c91_client_socket_refuted): each connection to a server whose certificate is not accepted leaves a descriptor open.
- nc_tls_ctx_destroy_wrap() does nothing with OpenSSL. If the private key does not fit to the certificate, the certificate, the key and both stores stay allocated; on a server by every connection of a peer (c91_key_refuted).
- With mbedTLS nc_accept_tls_session() closes the socket if no TLS session can be made, and nc_session_free() again (c91_double_refuted).
- nc_session_tls_crl_from_cert_ext_fetch() returns the result of the last download: a distribution point that cannot be reached stops the connection if it is the last one only (c90_last_refuted). Data of a download that broke off stay in front of the next one's and are not freed at the end (c90_rest_refuted). With mbedTLS a CRL that is not in DER is read beyond its end (c90_pem_refuted).
- With mbedTLS mbedtls_ssl_config_defaults() is called after the configured versions and cipher suites were set, which it replaces (c93_force_refuted). opts->ciphers is a pointer to void, so that memory for the suites is allocated in bytes instead of integers (c93_memory_refuted). The prefix of suites of TLS 1.3 is written over (c93_name_refuted).
- Not modelled, but seen: the data of the verify callback of a server (cb_data of nc_accept_tls_session()) are on the stack of a function that has returned when the peer renegotiates later.

### Keys and certificates from files

- With OpenSSL nc_tls_get_ec_pubkey_params_wrap() asks for the parameter "p", the prime of the field, where the point is meant: the SSH public key made for an elliptic curve key is the same for all keys on that curve and no key at all (c111_openssl_refuted).
- nc_server_config_util_bn_to_bin() looks at the first byte of a number; 0 has none (c111_zero_refuted). No real key has such a number.
- nc_server_config_util_read_ssh2_pubkey() skips lines that begin with "Comment:" only; every other header of RFC 4716, a tag in lower case and lines that continue a comment become part of the key (c113_header_refuted, c113_continued_refuted).
- nc_server_config_util_read_openssh_pubkey() drops the result of ssh_pki_export_pubkey_base64() (c113_success_refuted).
- nc_server_ssh_privkey_data_to_tmp_file() leaves an empty file if fdopen() fails and the file with the private key if strdup() fails; that unlink() failed is a warning only (c115_left_refuted, c115_empty_refuted). The result of fclose() is not looked at.

### CRL distribution points

- mbedTLS: `general_names` of nc_server_tls_parse_crl_dist_points() is shared by all points of an extension. With two points the URIs of the first are listed twice, with three, or two of which the first has two names, listing fails and so does every connection (c116_two_refuted, c116_three_refuted). The list is never freed.
- mbedTLS: optional fields after the name of a point (reasons, cRLIssuer), or in place of it, are taken for the next point: an error (c116_reasons_refuted).
- mbedTLS: `san` is not reset; a name of a kind mbedTLS does not support leaves the one before in it: a URI is listed again, and a directory name freed twice (c117_free_refuted). memcmp() is given the length of the OID in the certificate: shorter OIDs that are a prefix match, longer ones may be compared beyond the constant (c117_oid_refuted). An extension of wrong length or an empty one is success, and the certificates after it are left out (c116_rest_refuted).
- OpenSSL: `dist_point->distpoint` may be NULL, and `name.fullname` is the wrong member for names relative to the issuer (c116_openssl_null_refuted, c116_openssl_union_refuted). The distribution points are never freed.
- The certificates are those of the local configuration, so that these are not errors a peer can cause.

### Call Home configuration

- nc_server_config_ch_del_endpt() does not move the last endpoint into the place of the removed one: removing another than the last one leaves its released entry in the array and forgets the last endpoint (c119_endpoint_removal_refuted).
- nc_server_config_destroy_ch_client() dereferences thread_data, which is NULL unless the client was dispatched (c119_no_thread_refuted). nc_server_config_setup_data() is concerned too, as it first removes all clients.
- Removing the container of a transport releases the options and leaves the pointer. A change from TLS to SSH, whose nodes are in the order of the schema, releases the new SSH options as TLS options (c119_transport_change_refuted).
- A client is created with max-wait 0, keepalives with all parameters 0; the defaults are only there if the diff contains them (c119_defaults_refuted). Removing keepalives does not reset the parameters.
- The list of endpoints is ordered by the user, but positions and moves in diffs are ignored.
- A diff is not applied atomically (c120_applied_in_order says what is applied).

### Threads of Call Home clients

- A thread that finds its client missing (in a session, or before it connects) ends and releases its data; if that happens between the removal of the client from the list and the access of nc_server_config_destroy_ch_client() to thread_data, released memory is used (c122_thread_first_refuted).
- After a wait the thread asserts that its client exists, though it may have been removed in between: the program is aborted or, without assertions, dereferences NULL (c122_assert_refuted).
- Removing a client whose thread was not dispatched dereferences NULL (c122_no_thread_refuted).
- A thread ending because a wait failed releases its data, but the client still points to them; the removal of the client uses them (c122_failed_wait_refuted).
- Dispatching a client twice overwrites the pointer to the data of the first thread; the removal waits for the second one only, the first goes on (c122_two_threads_refuted).
- nc_server_ch_client_with_endpt_lock() repeats without a look at the flag while the client has no endpoint; the thread ends only because the client is removed first.
- If the flag is reset after a session was established and before it is handed over, the session is never released.

### Context of a client session

- nc_ctx_fill() looks only at the module, not at the result of nc_ctx_load_module(): a module in the context that cannot be made implemented counts as loaded and the session is not marked as not strict (c124_not_implemented_refuted).
- The name of the parsed module is not compared with the name asked for (c124_other_module_refuted).
- The comment says the base module is loaded whether or not it is in the capabilities; in fact a server that does not list it is refused (c128_not_listed_refuted).
- build_module_info_yl() ignores the error of get_oper_data(); the fill may succeed on a session that is not running (c127_dead_session_refuted).
- LY_CTX_DISABLE_SEARCHDIRS and LY_CTX_EXPLICIT_COMPILE of a context given by the user are unset (c129_options_refuted).
- Seen but not modelled: data of the user's callback are always released with free(), whatever function the callback has set; the path of a local file that is not used because of its missing revision is leaked; replies with a wrong message-id are leaked in retrieve_module_data_getschema().

### Outgoing connections

- A pending socket of a Call Home endpoint is kept when the address (or port) of the endpoint is changed; the session that results is connected to the old address, with the new port as nc_session_get_port() (c132_configured_address_refuted).
- When the first address of a host does not answer within NC_CH_CONNECT_TIMEOUT, its socket becomes pending and the other addresses are not tried; after the socket fails or is given up, the next attempt starts with the first address again. A Call Home client reachable only by its second address (IPv4 after IPv6) is never connected (c134_reachable_connects_refuted).
- TCP_NODELAY is not set on a socket that was pending (c136_nodelay_refuted).
- The test "sock > 0" skips descriptor 0, for which the session has no host (c131_host_refuted).

### Keystore and truststore

- nc_server_config_ks_public_key() ignores the operation: when the (optional) leaf public-key of an asymmetric key is removed, its old value is set again and stays in use (c137_public_key_refuted).
- An unsupported public-key-format is only logged and the call succeeds; the type is that of the format before, or unknown (c137_unknown_format_refuted). An unsupported private-key-format is an error.
- The loops that delete all entries, `for (i < count) del(&array[i])` with a deletion that moves the last entry to the place of the deleted one and frees the array after the last, look wrong but delete each entry exactly once: what they read at i was not overwritten before, as only places below i were (c138_memory).
- The counts have 16 bits; the 65536th entry makes the count 0 and its name is written before the array.
- nc_server_config_setup_data() refuses trees with operations only from netconf-server on among the siblings; a keystore tree before it may have them. It deletes the previous configuration before the new one is checked, so that a failed call leaves neither.

### Keyboard-interactive (KbdInt)
- nc_pam_conv_clb() allocates and fills the responses for the questions only; PAM expects one entry per message. After a PAM_TEXT_INFO the answers are at wrong places and the module reads after the array (c142_responses_refuted).
- The auth-timeout 0 is "no limit" in nc_accept_ssh_session_auth() but makes nc_server_ssh_kbdint_get_nanswers() give up at the first look, so that keyboard-interactive practically does not work with it (c140_zero_refuted).
- Each question starts a new auth-timeout, and the loop of the authentication is held up meanwhile (c145_limit_refuted).
- PAM_TEXT_INFO is only logged by the server, the user does not see it; PAM_ERROR_MSG ends the conversation with PAM_CONV_ERR.
- session->data is read before it is compared with NULL; on errors *resp stays allocated (the module frees it, or not); any SSH message is taken for the answer and is lost if it is something else.

### Notification threads and client contexts (NotifThr, ClientCtx)
- nc_session_ntf_thread_running() keeps saying 1 after the thread ended by notificationComplete or by an error of the session: the flag is cleared by nobody (c147_running_refuted).
- If pthread_create() fails in one nc_recv_notif_dispatch() while another call is made, it clears the flag the other one set: that thread ends at once, or nc_session_free() does not wait for it and it uses the freed session (c146_two_calls_refuted).
- nc_session_free() waits at most NC_SESSION_FREE_LOCK_TIMEOUT (1 s) for the threads and then frees the session under them; a callback that takes longer, or that calls nc_session_free() itself, uses freed memory (c146_slow_callback_refuted).
- The callback that frees user data is called after the thread decremented the counter, possibly after nc_session_free() has returned.
- The reference counter of a client context is a plain unsigned int changed by several threads without a lock: two threads that end at once leak the context; one that sets it while another ends makes it be freed while it is used (c150_lifetime_refuted).
- Contexts of threads other than the main one have keepalives disabled, because they are allocated by calloc() and only some members get the values of the static initialiser; no function of the API turns them on (c151_defaults_refuted).

### SSH options of endpoints (SshConf)
- There is no handler for the container "keyboard-interactive", and the walk does not descend into deleted nodes: if the container is removed from a user by a diff, kb_int_enabled stays 1 and the user is still authenticated by keyboard-interactive (c154_keyboard_refuted).
- Removing auth-timeout leaves the removed value in use; the default of the YANG module is 30 (c152_timeout_refuted).
- Host keys are ordered by the user, but a removed one is replaced by the last one, new ones are appended and moves are ignored (c152_order_refuted).
- "hostbased" of a user is ignored.

### Building configurations (CfgBuild)
- Identifiers are written between apostrophes into the paths without any check: with an apostrophe in a name nothing can be added (c155_apostrophe_refuted), and nc_server_config_del_endpt() with a crafted name removes a host key of another endpoint and reports success (c156_apostrophe_refuted).
- nc_server_config_del_ssh_truststore_ref() uses a path without "endpoints": it always fails (c156_user_ref_refuted).
- Deleting with name NULL (or id 0) is documented to delete all entries; lyd_find_path() refuses the path of a list without a key, so the calls always fail (c156_all_refuted). If it took the first entry, only that one would be deleted.
- "*config: if NULL, it will be created" does not hold for nc_server_config_add_ch_persistent(), _period(), _anchor_time(), _idle_timeout() (nc_server_config_check_delete() fails on no tree) nor for the keystore and truststore functions, which fail and leak the tree they made, since they look for netconf-server in it (c157_*_refuted). On a tree with a keystore only they lose the caller's tree (c158_keystore_refuted).
- nc_server_config_add_address_port() with another transport leaves the old transport of the endpoint: both cases of the choice are in the tree (Example both_transports).
- nc_server_config_add_tls_ctn() with an unknown map type fails after the fingerprint was set.

### Memory of messages (MsgMem)
- A string that strdup() cannot copy is silently missing in the request: get-config or get without its filter, commit without its persist-id, edit-config without content (c161_lost_filter_refuted). Only get-data checks, for its origin filters.
- nc_rpc_establishpush_onchange() loses the strings copied so far if its array cannot be enlarged, and those after one that could not be copied (c160_excluded_change_refuted).
- nc_server_notif_new() loses the copied time if the tree cannot be copied (c163_eventtime_refuted).
- By reading only: nc_client_err_clean() (messages_client.c 1049-1082, called nowhere) frees err->other with lyd_free_siblings() and then again with free().

### Terminals and DNS (Prompt)
- For host keys that are neither RSA, DSA nor ECDSA (Ed25519) no SSHFP record is looked up, but the user is told "Matching host key fingerprint found using DNS." before being asked whether to connect (c168_other_types_refuted). An attacker needs nothing but a key of that type.
- The data of an SSHFP record are read without looking at their length (c169_short_record_refuted).
- If a host has two keys of a type, only the first record is compared: the other key is reported as not found (c167_two_keys_refuted). Only SHA-1 fingerprints are looked for.
- The length of the buffer for a line overflows at 2^30 characters (c165_too_long_refuted). Buffers with secrets are freed or moved by realloc() without being cleared.

### Certificates that expire (CertCfg)
- If memory is short for one interval, nc_realloc() frees all and sets the array to NULL, but the number stays: the next removal reads at NULL, the next addition makes the intervals before it uninitialised memory (c170_memory_refuted).
- Names are put into XPaths as they are: with an apostrophe a notification names other data or no valid XPath, and two certificates may have the same one (c171_apostrophe_refuted, c171_same_path_refuted).
- One certificate that cannot be decoded (nothing checks that when the configuration is set) ends the thread: no certificate is watched any more, and the thread does not come back although the configuration is corrected (c172_broken_refuted).
- When appending a certificate fails after its times were allocated they are lost; when the array cannot grow it is NULL while the number of entries stays, and releasing reads it (c173_memory_refuted).

### UNIX sockets (UnixSock)
- An address of exactly 107 characters passes the check but loses its last character: the file with the shorter name is deleted, the socket is made there and stays after the endpoint is removed (c174_cut_refuted, c176_left_refuted). A client with that address does not find the server.
- The client does not check the length: from 108 characters on it connects to the socket named by the first 107 (c177_cut_refuted).
- The file of the socket stays if chmod(), chown() or listen() fails (c176_left_refuted).
- Each connection of a user without an entry in the user database loses the buffer of nc_getpw(); nc_connect_unix() has the same defect (c179_unknown_user_refuted).

### Schemas (GetSchema, SchemaStore)
- The client takes names of modules from capabilities unchecked into the name of the file it stores the module in: a server announcing `module=../../../etc/x` writes to places outside of the directory and overwrites files named *.yang (c184_outside_refuted, c185_overwritten_refuted).
- Results of fputs() and fclose() are ignored: a module stored in part is used by all later sessions (c186_cut_refuted).
- The path found is lost if it has no revision (c187_norev_refuted).
- The function for releasing set by the user's callback is replaced by free() (c188_static_refuted).
- nc_clb_default_get_schema() ignores the results of the printers (c181_cut_refuted), and does not report requests that mean several schemas (c182_several_refuted).

### End of a session (SessFree)
- An error of the RPC lock or of the lock of messages makes nc_session_free() return without releasing anything (c189_error_refuted).
- A server that sends a notification before each timeout keeps nc_session_free() from returning (c192_endless_refuted, c192_notifications).
- assert(!siter->opts.client.ext_data) fails when a session with a context of the user is closed while another on the connection has data for schema mounts; without assertions these data are lost (c193_abort_refuted).
- If the thread of Call Home, of notifications or the one processing an RPC does not finish in time, the session is released under it ([InVain] in the trace).

### Options of a client (ClientOpts)
- If strdup() of the certificate (CA file) fails, key_path (ca_dir) keeps the address released just before; the next setter or nc_client_destroy() releases it again (c195_cert_refuted, c195_ca_refuted).
- If the table of key pairs cannot be reallocated, it is NULL while key_count stays: the paths are lost and the next access crashes (c195_table_refuted, c196_table_refuted).
- The default preferences are the opposite of what session_client.h says (c198_documented_refuted).

### Transports (TransportIo)
- session_mbedtls.c 860 and 891: `errno = EAGAIN` instead of `==`. Every error of the socket is taken for "try again": nc_write() and nc_tls_close_notify_wrap() never return on a broken connection, nc_read() and the handshake of a server end only by a time limit (c199_endless, c200_until_timeout, c201_mbed_endless, c202_until_timeout).
- nc_tls_close_notify_wrap() with MbedTLS also loops for as long as the peer does not read (c201_mbed_endless with EAGAIN).
- nc_session_is_connected() is meant to prevent SIGPIPE (io.c 586), but the peer can close after it, and for NC_TI_FD it polls the descriptor for reading, not the one written to (c204_signal_refuted).

### SSH connections of a client (SshConn)
- nc_connect_ssh_channel(), line 1903-1905: if the channel is not opened, `goto fail` skips the unlock. The I/O lock of all sessions on the connection stays locked (c208_locked_refuted).
- _nc_connect_libssh(): on an authenticated SSH session every failure loses host and user name (c205_connected_refuted); without a user, host, buffer and socket (c205_user_refuted).
- nc_accept_callhome_ssh_sock(): if the host cannot be set or the user is unknown, the socket stays open (c205_callhome_refuted); without memory for the session, SSH session and socket are lost although the comment says they are freed (c205_memory_refuted).
- nc_connect_ssh_channel() copies host and user with strdup() unchecked for NULL; a session can have no user name (c209_user_refuted).
- session_client.h says EUID, the code asks getuid() (c211_real_user_refuted).

### Findings on the life of a server (C213-C218)

- `nc_server_destroy` (session_server.c 883-885) frees the user data of the content-id callback but leaves callback and
  pointer in `server_opts`: after another `nc_server_init`, greeting a session calls the callback with freed data and the next
  `nc_server_destroy` frees it again (C215).
- Setting either callback again forgets the datum of the previous one (C216).
- `nc_server_init` destroys the rwlock attribute at 831 and, if anything after that fails, again at 866 (`attr_p` is not reset);
  a failure leaves the locks and libraries set up before it (C217).
- `nc_server_destroy` destroys only `bind_lock`: the next `nc_server_init` initialises the other locks while they are
  initialised, which POSIX leaves undefined (C218).
- `nc_server_config_load_modules(NULL)` dereferences its argument, unlike `nc_server_init_ctx(NULL)`.

### Trees of replies (ReplyOp)
- retrieve_module_data_getschema() calls nc_recv_reply() again after a reply with a foreign message-id without freeing the envelope and the data of that one: a server can make the client lose any amount of memory (c224_schema_leak).
- get_oper_data() frees the envelope before it calls nc_recv_reply() again, which leaves the variable alone if it fails before receiving; the envelope is then freed a second time (c224_oper_full_refuted).
- recv_reply_dup_rpc() makes the operation of a push subscription before it looks for ietf-yang-push and does not free it (c223_full_refuted); only for requests nc_send_rpc() has refused.

### Certificates of TLS connections (TlsLoad)
- nc_server_tls_get_num_certs() returns -1 as uint16_t for a truststore reference it does not find, so an endpoint without any certificate of clients passes the check that there are some (c227_full_refuted).
- A keystore reference with a key but no certificate passes NULL to strcmp() (c228_wild); the schema does not allow it.

### Messages (LogMsg), reports of algorithms (AlgReport)
- prv_vprintf() overflows an int for a text of exactly 2^31-1 bytes (c230_full_refuted).
- The algorithm triple-des-cbc is reported as supported, but configured it is given to libssh as "triple-des-cbc"; the protocol has "3des-cbc" (c233_full_refuted).

### Call Home addresses of a client (ChClient)
- nc_client_ch_del_bind() does not free the host name of an address it removes unless it removes all (c236_full_refuted).
- nc_client_ch_add_bind_listen() raises the count before it grows the arrays; if there is no memory the next removal reads a NULL array (c235_full_refuted).

### Copies of certificates (TlsChain)
- nc_server_tls_verify_cb() of mbedTLS does not reset the pointer to the chain it freed (c238_again); it is harmless because the data live for one handshake.

### Offered methods and errors for unparsable messages (C240-C242)
- A client that names a user unknown to the endpoint is offered only publickey from then on, also for its next, known user (c240_full_refuted).
- nc_server_prepare_rpc_err() sends malformed-message to :base:1.0 clients, which RFC 6241 forbids (c242_full_refuted).

### The end of the server, killers (C243-C244)
- nc_server_destroy() (and the removal of listen) loses a UNIX socket endpoint that lies between configured ones: c243_lost.
- nc_ps_poll() that ends a session marked as killed gives another reason but keeps killed_by (c244_full_refuted).

### Changing the transport of a listening endpoint (C250-C251)
- Removing the container ssh or tls frees the address and closes the socket of the endpoint without resetting them: the new local-address frees the address again. If the new container comes first, its options replace the old ones (lost) and are then released as options of the old transport. c251_never: no such change can succeed.

### Revision of submodules (C252)
- If the revision of the including module is given, `match = 1` ends the search before it starts, so modules[0] is taken for the including module.
### What whole data leave of the old configuration (C254-C255)
- nc_server_config_setup_data() deletes listen, call-home, keystore and truststore only. The intervals of ln2-netconf-server stay and the new ones are added to them; the idle timeout stays if the new data have none. Deleting listen with a difference does not reset the idle timeout either, since the children of a deleted node are not visited.

### Submodules without revision, refused data (C257-C258)
- retrieve_module_data_imp() takes a missing revision of a listed submodule for a missing submodule and gives up.
- nc_server_config_setup_data() deletes the old configuration before the new one is known to be usable; a failure leaves the part of the new one applied before the failing node.

### Locks (C259-C264)
- Nothing says what callbacks may call. new_session_cb runs with ch_lock of the session held and in a thread that a removal of the client waits for with config_lock held: nc_server_config_setup_*(), nc_accept(), the setters and nc_session_free() of the same session deadlock there (c261_refused). acquire_ctx_cb, release_ctx_cb and the authentication callbacks of Call Home run with ch_client_lock and the lock of the client held.
- nc_accept() has config_lock for reading during the whole SSH or TLS handshake, so a change of configuration waits for it.
- nc_server_ch_client_is_endpt() reads the endpoints of a client without its lock (c263_full_refuted).
- A connecting Call Home thread reads the truststore, the keystore and referenced endpoints without config_lock (c264_full_refuted); nc_server_notif_cert_exp_thread() uses the pointer to the intervals after it unlocked them (c264_intervals_refuted).

### Key pairs (C265)
- nc_server_config_util_get_asym_key_pair() does not check that the public key of the second file belongs to the private key; the server offers one key and has another (c265_full_refuted).

### Threads on one pollsession (C268, C271)
- nc_ps_poll() writes the state of the entry after the RPC (session_server.c 2125-2144) with no lock of the structure; nc_ps_del_session() and nc_ps_clear() in another thread free the entry in the meantime (c268_full_refuted, c268_clear_refuted).
- nc_session_free() goes on when it did not get the lock for RPCs in time (session.c 877-884), and the thread that handles the RPC uses the freed session (c271_full_refuted).

### Callbacks (C272)
- nc_server_init_cb_ctx() puts the default callbacks into the schema when a session is accepted; nc_set_global_rpc_clb() after that does not replace them although session_server.h 101 says that the defaults are not used (c272_full_refuted); a global callback that is taken away after sessions were accepted leaves close-session without callback until the next session is accepted (c272_close_lost).

### Waiting for SSH channels (C274)
- nc_accept_ssh_session_open_netconf_channel() multiplies its timeout by 1000 as if it was in seconds, but nc_accept_ssh_session() passes milliseconds (NC_TRANSPORT_TIMEOUT, session_p.h 614-617, 1123): a client that authenticates and opens no channel keeps the thread in nc_accept(), which has the lock of the configuration, for 2 hours and 46 minutes instead of 10 seconds (c274_full_refuted).

### Limits for receiving (C276, C278)
- nc_read() checks its limits only when a read gave nothing: a peer that always has a byte ready keeps the thread (and the lock of the transport) with one message for ever, although READ_ACTIVE_TIMEOUT is "maximum number of seconds for receiving a full message" (c276_never).
- nc_read_msg_poll_io() uses its timeout twice, for the lock and for poll(): it may take twice as long as asked for (c278_full_refuted).

- C281: alternative names are not put into lower case as ietf-x509-cert-to-name asks for: a client with "FooBar@Example.COM" or DNS name "Host.Example.COM" gets that user name (`c281_full_refuted`, `c281_mail_refuted`).
- C282: session_mbedtls.c 675 assigns the comparison to rc, so the check in 676 never fires; a failed asprintf() leaves san_value undefined and 0 is returned (`c282_full_refuted`).

- C283: an error of write() (e.g. ENOBUFS, EIO) leaves the session running; what was written of the message is glued to the next one, which the peer then reads as one message nobody sent (`c283_mixed_refuted`).

- C285: nc_tls_rng_new(), nc_tls_get_rsa_pubkey_params_wrap() and nc_tls_get_ec_pubkey_params_wrap() of session_mbedtls.c allocate all objects before they initialise the first; if a later allocation fails, the earlier objects are given to mbedtls_*_free() with indeterminate contents (`c285_full_refuted`, `c285_others_refuted`).

- C286: ERR_reason_error_string() may return NULL; session_openssl.c 928 takes strlen() of it (`c286_full_refuted`). With nothing queued or without memory the result is NULL and is printed with %s.

- C287: sock_host_unix() asks for the name of the accepted socket, which is the server's own (getsockname, not getpeername), so that all clients on a UNIX socket have the same host; inet_ntop() drops the scope of link-local addresses (`c287_full_refuted`, `c287_scope_refuted`). The test for an unnamed socket (466) compares an array with NULL and never holds.

- build_module_info_cpblts() does not check strndup() and nc_realloc(): a missing name ends the array early for free_module_info() and the entries behind it are lost; a failed enlargement is a write through NULL (c292_refuted, c292_null_refuted).

- C294: nc_tls_append_cipher_suite_wrap() of MbedTLS takes sizeof *opts->ciphers, the size of void, for that of int: every cipher suite is written beyond its block; with glibc the sixth overflows the heap (c294_overflow, c294_glibc). Deleting one searches the numbers for a name (c294_never_removed).
- C295: nc_tls_process_cipher_suite_wrap() of MbedTLS overwrites the prefix "TLS1-3" it has just written, so that no suite of TLS 1.3 is accepted (c295_refused).

- C296: nc_server_config_public_key() takes the -1 of nc_is_pk_subject_public_key_info() (text not decoded) for a SubjectPublicKeyInfo, so that it is accepted as the public key of a server of TLS (c296_refuted); public-key-format may say the opposite of what the key is (c296_format_refuted).

- C297: nc_server_add_endpt_unix_socket_listen() does not undo anything if memory is short: nc_realloc() frees the array of endpoints (or binds) while server_opts still points to it and the count stays (c297_endpts, c297_binds); without memory for the name, the next search compares with NULL (c297_name); without memory for the options, deleting the endpoint reads through NULL (c297_opts).

- C298: the transport of a listening endpoint cannot be changed: nc_server_config_del_ssh_opts() and ..._tls_opts() free bind->address and close bind->sock without resetting them, so that the address of the new transport is a double free; with the new container first, the options of the new transport are freed as those of the old (c298_never).

- C299: nc_rpc_err_get_quoted_string() gives the text between the last two quotation marks if there are fewer than asked for, even one between two quoted texts (c299_given).
- C300: nc_rpc_err_find_lysc_node() and nc_server_prepare_rpc_err() do not check strrchr(): a path without slash or colon is read through NULL (c300_unsafe); libyang does not make such paths as far as known.

- C301: nc_server_notif_send() checks for subscriptions before it takes the lock of the session: the last subscription may end in between and the notification is still sent (c301_refuted).

- C302: nc_session_curl_cb() keeps the size when realloc() fails: a later download is put behind bytes never written and all is given to the parser (c302_lost). nc_realloc() frees a block again that realloc(p, 0) of glibc has freed: two empty pieces (c302_twice).

- C303: after a reply with several errors has been written, all errors but the first are freed (lyd_unlink_tree() of the first only), the reply has one left; a reply with an unknown type loses the envelope; NC_RPL_OK without an envelope reads NULL.

- C304: the size of the buffer for users' entries is shifted without a check; only if 2^62 bytes could be allocated would it become zero (c304_refuted): no real system.

- C305: with mbedTLS and only TLS 1.0 or 1.1 configured, nc_server_tls_set_tls_versions_wrap() warns and succeeds; sessions use 1.2 and 1.3, which were not configured (c305_never).

- C306: if no memory is there for the store of CRLs, nc_session_tls_crl_from_cert_ext_fetch() returns success without a store; the TLS configuration is then set up without revocation checks although the certificates name CRLs (c306_unchecked).

- C307: nc_tls_get_verify_err_str() of session_mbedtls.c returns NULL if the reasons do not fit in 256 bytes; both callers give it to ERR() for %s, which C leaves undefined (c307_too_long). Which errors a certificate has is up to the peer.

- C308: nc_server_tls_set_cipher_suites_wrap() of session_openssl.c ignores the results of both calls; if only suites up to TLS 1.2 are configured, SSL_CTX_set_ciphersuites() fails and the default suites of TLS 1.3 stay in use (c308_defaults).

- C309: nc_client_tls_load_trusted_certs_wrap() of session_mbedtls.c takes the number of certificates that could not be read for success, without a message; a directory in which none can be read is a success, too (c309_skipped).
