# Formal model of graygnuorg/pound in Rocq (Coq 8.16.1)

The code in /repo is read as text and modelled by hand, function by function,
as total computable Gallina functions.  Every definition cites the file and
lines it models and says what it simplifies.  Each property of
`properties.jsonl` becomes a theorem about these functions.

## Layout (rocq/theories)

For each topic `X`:

* `XModel.v` – the modelled code, definitions only, no proofs;
* `XSpec.v` – the small independent specification (grammar, relation, abstract
  map, ...), not using the model's helpers;
* `XProofs.v` (and further `X…Proofs.v`) – lemmas;
* `XProps.v` – the property theorems, nearly all closed by `exact`, with
  `Print Assumptions` below each and concrete `Example`s that meet the hypotheses.

`Bytes.v` holds the common vocabulary: bytes are `ascii`, C strings are
`list ascii` without NUL; buffers that may contain NUL are `list ascii`.

Theorems are named after their property, `Cnn_...`.  The suffix says what they are:

* no suffix: the property, or a part of it, in full;
* `_partial`: true under a condition that the property does not mention; the
  comment above the theorem says what is missing;
* `_refuted`: the property is false of the code; the theorem gives a witness, or
  a whole class of them.

`MANIFEST.json` lists the theorems of every property.  A property is "partial" there
when some part of its statement is refuted or proved only under a condition.  In all
these cases the full statement is false of the code as it is; nothing is left
unproved that was found to be true.

## Conventions

* Undefined behaviour (out-of-bounds access, NULL dereference, signed
  overflow, use after free) is a separate outcome of the model, never a default.
* Endless loops are modelled with fuel and a separate out-of-fuel outcome;
  theorems either exclude it or show that it is reached (non-termination).
* Calls to libraries (OpenSSL BIO, regex, getaddrinfo, adns, crypt, clock, random)
  are arguments of the model: streams, schedules, oracles.  Theorems quantify
  over them.
* Threads: a step of a concurrent model is a critical section, or a stretch of code between two
  accesses to shared memory; theorems quantify over all interleavings of steps.
* When the faithful model violates the property, the violation is proved as a
  theorem `..._refuted`, next to the strongest true version that was proved.

## Plan per property

| id | what is modelled | how it is proved |
|----|------------------|------------------|
| C01, C02 | `strtoclen`, `get_content_length`, `trimwsl` on C strings, lengths in Z | spec: grammar + positional value; induction on digits with the cutoff invariant |
| C03 | `get_line`, `drain_eol` over a stream of read events | induction on the stream with the loop counter generalised |
| C04 | `copy_bin`, `copy_chunks` over a stream and a schedule of read sizes | spec: grammar of chunked bodies as an inductive relation; fuel induction |
| C05 | same; 64-bit addition with overflow as separate outcome | invariant tot <= max; overflow witness as refutation |
| C06 | header scan of `do_http` as a fold | case analysis + permutation/counting spec |
| C07 | `parse_http_request`, `find_method`, methods table | grammar spec, both directions |
| C08, C09 | URL split/rebuild/set, query parameter list | round trip, map laws |
| C10 | `cs_locate_token` | equivalence with split-and-trim spec |
| C11 | `http_header_list_append`, filter | list laws |
| C12 | `expand_string_to_buffer` on memory with bounds, submatch queue | refinement to a tokenised template; UB witnesses |
| C13, C14, C15 | `match_cond`, rewrite rules, `get_service` over abstract atoms | induction on trees |
| C16 | redirect sanitiser | forall bytes |
| C17 | CIDR functions | bit-level equivalence with prefix equality |
| C18, C19, C20, C21, C44 | balancer selection and counters | counting lemmas, cycle invariant, reachable-state invariants, race witness |
| C22, C23, C48 | session table, expiry, hash tables | refinement to a map, invariant over histories |
| C24 | job queue | sorted-stable invariant over histories |
| C25 | matchers, Boyer-Moore | equivalence with substring spec, refutation where tables are wrong |
| C26 | password file parsing, `auth_match` | spec by first-entry lookup; hash functions as oracles |
| C27 | `scan_forwarded_header` | equivalence with split-from-right spec |
| C28, C29 | work queue, dispatcher loop | invariants over interleavings |
| C30, C31 | control path parser, endpoint table | equivalence with lookup spec, NULL outcomes |
| C32, C33 | JSON object list, formatter, parser | map refinement, round trip |
| C34, C35 | reference counting, address update | invariants over interleavings, set equality |
| C36, C37 | response loop, Location test | case analysis, refutations |
| C38 | list.h on an explicit heap | separation-style invariant by induction |
| C39 | mem.c growth arithmetic mod 2^64 | arithmetic invariants |
| C40 | cookie / header key search | equivalence with split spec |
| C41, C42 | lexer, log format compiler | round trip with a printer |
| C43 | supervisor state machine | history induction |
| C45 | host regex builder with a small matcher for the generated fragment | equivalence and refutation |
| C46 | number parsers | equivalence with value spec |
| C47 | connection loop of `do_http` | composition of the request and response models, induction on requests |
| C49 | `qualify_header`, `http_request_read` with combinable headers | grammar of heads, both directions |
| C50 | `acme_response` over a tree of files with links | path resolution by induction on components |
| C51 | `bio_http_reply`, `bio_err_reply`, `error_response`, metrics and control replies | message grammar |
| C52 | `resolver.c`, the update functions of `dynbe.c`, the jobs they schedule | case analysis over what the name server says, invariant over histories |
| C53 | `http.c` 4390-4505 (`select_backend`), 4863-4919; `svc.c` 988-1046 (`get_backend`) | balancer and session invariants over joint histories; induction over attempts |
| C54 | `http.c` 3213-3391, 4161-4316 (`send_to_backend` and the fields it adds), together with reading and checking of the request | the header edits as a list of abstract edits of a field list; refinement, then facts about edits; re-reading of the head that is sent |
| C55 | `http.c` 4507-4521, `svc.c` 1993-2041 | running averages over lists of requests, rationals with a rounding function; Newton iteration: invariant (above the root after one step) and decreasing measure |
| C56 | `svc.c` 1869-2388 (serialisation), with `json.c` objects | JSON values of arbitrary configurations; induction over balancers for the numbers |
| C57 | `cfgparser.c` 735-806, 936-1181, Rewrite tables of `config.c` | parser over stacks of token lists, statements as parameters; equivalence with an inductive grammar (induction on fuel / on derivations), termination by a weighted count of tokens |
| C58 | `http.c` 4007-4146 (the tunnel in `backend_response`) | poll loop over arbitrary environments (what poll and the reads return); invariants of the relayed streams by induction over the loop |
| C59 | metrics.c on top of the listings (C56): samples per object, families in order of first use, text; the static variable as a race of threads | induction over the arrays of the listing; determinism of the grammar; schedules |
| C60 | config.c: the certificates of a listener, fnmatch, the SNI callback | fnmatch against an inductive definition of patterns; induction over the directives |
| C61 | config.c: Backend, UseBackend, Emergency sections, global backends, backend_finalize, service_finalize | refinement to the last directive of each kind; equality of outcomes of two configurations |
| C62 | config.c: the conditions, modifications and rewrite sections of a Service, on the statement parser of C57 | a tree of statements, a relation for how it is written and one for what it says; acceptance by induction on the tree; an invariant over every accepted text; truth by induction |
| C63 | tmpl.c: the reader of output templates, tokens to actions | an inductive grammar relating text and tree, independent of the reader; the reader is complete for it by mutual induction, with explicit fuel; uniqueness from that; loops, assertions and double frees shown as outcomes |
| C64 | tmpl.c: running a tree of actions, pipelines and functions | inductive relations for values, errors and output, independent of the evaluator; the evaluator with fuel agrees by mutual induction, with an invariant that relates the environment object to a map of variables; termination by a rank of the templates; arithmetic of doubles and printf as parameters |
| C65 | tmpl.c: the function printf of templates, its states, conversions and buffers | a relation for what printf(3) outputs, independent of the machine; each conversion by its arithmetic, whole formats by induction on the relation over a step function with fuel; termination by the length of the format; overflow as an outcome |
| C66 | settings of poundctl as a fold over statements and options, the line scanner for the control socket, the URL splitter; spec: last statement wins, grammar of lines, grammar of URLs | induction over statements, options and lines |
| C67 | commands of poundctl as functions from URL and arguments to the bytes sent, with base64; read by the model of the request reader and of the control backend | spec: a relation from command lines to methods and resources, base64 as a relation; composition with the completeness of the request reader and with C30 |
| C68 | poundctl.c: the reader of status line, header lines and body, the exit status of commands; the bytes sent are those of the model of the replies of the daemon | spec: an answer as status line, fields and body; induction over header lines; composition with the JSON round trip (C33), the replies (C50) and the requests (C67) |
| C69 | poundctl.c: the search for the template file over an arbitrary file system, reading it, the commands as a whole | spec: elements of a path, what an element gives, the first that gives one; lines and columns of a text; an invariant of the template reader (text before and after the offset); composition with C63, C64 and C68 |
| C70 | config.c: Redirect, Error, ErrorFile and Session on token lists, with the expression for URLs; composed with the models of the redirect reply and of the table of status codes | spec: the first URL in a text with host and path, numerals, files as strings, settings with the last one counting; induction over the text and over the statements |
| C71 | config.c: LogSuppress, HeaderOption, Disable; the test in http_log | spec: words and the classes, features and versions they stand for; induction over the words, bit masks as sets |
| C72 | cfgparser.c: the list of open directories with reference counts, the include directory, Include, IncludeDir, files and certificates; config.c: the pass over password files at the end, -W; the root and working directory at run time | spec: last IncludeDir before the statement, path of a name in a directory; invariants relating reference counts to holders over lists of statements, induction over nested conditions and rules; a use of a freed or null directory is an outcome of its own |
| C73 | config.c: ClientCert, VerifyList, CRLlist, the certificates of conditions; http.c: the handshake and the conditional; OpenSSL's use of the settings of the first context and of the store of the chosen one | spec: a table of modes, lists after the n-th certificate, occurrence in a condition; invariant over lists of directives, induction over conditions |
| C74 | config.c: the two masks of options and the directives on them, conversion of the int to the library's type; svc.c SSLINFO_callback; http.c: the state of the connection and bio_callback | spec: what the directives say last, bits of options by number, histories with a second handshake; bit lemmas for masks and sign extension, invariants over histories, equality of histories with and without the defence; numbers of states as hypotheses |
| C75 | http.c bio_callback with the results of poll and the time they took, set_callback, is_readable | spec: poll keeps to its timeout; invariants over histories of operations on both BIOs, induction over interrupted waits; overflow is an outcome of its own |
| C76 | pound.c: unlink_at_exit, pidfile_create, cleanup, listener_init, detach and main in their order, over a file system with owners and modes; config.c: Control sections and the statements that matter, read in order | spec: what the statements say last, places of names from a directory; induction over statements, listeners and remembered names; invariants: directories are neither made nor removed, a remembered name leads to one place |
| C77 | pound.c main with setgid, setegid, setuid, seteuid, chroot and chdir as the system defines them | spec: identities of a process; case analysis over the calls, places of names after chroot |
| C78 | config.c: Address, Port, SocketFrom, resolve_listener_address, find_listener_ident | spec: last statements, NoDup of names; induction over statements and listeners, getaddrinfo as an argument |
| C79 | pound.c: active_threads_decr, active_threads_wait and server after sigwait, on top of the worker pool of C28; time as a monotonic count and a clock that can be set | spec: reachable states, requests being served; invariants over all schedules (the counter is the number of serving workers, a sleeping main thread has somebody to wait for, the deadline keeps its distance), queue conservation |
| C80 | json.c values in a heap of blocks: constructors, json_value_free, json_value_copy, json_array_*, json_object_set; mem2nrealloc; use of released or unwritten memory is undefined behaviour | spec: look reads a value and the blocks that make it up, becomes says which blocks are new, kept, released; induction on the depth with frame lemmas |
| C81 | every use of mutexes and conditions in svc.c, dynbe.c, http.c, pound.c, bauth.c (not the lock array for old OpenSSL), as programs of lock actions with choices and loops; interleaving semantics with recursive mutexes, and the job queue | spec: deadlock = a nonempty set of threads each waiting for another of the set, race = two threads about to use the same lists, one to change them; a lock order with the depth of dynamic backends, induction on programs and on schedules, maximal lock argument |
| C82 | bauth.c pass_file_fill, user_pass_free, pass_file_changed, basic_auth_internal, as steps of several workers on one list in memory, without a lock | spec: verdict of the file, list spelled in memory; invariant over all schedules, induction on lists in memory |
| C83 | LogFormat, LogLevel and LogFacility, the built-in formats, and http_log as far as it chooses the format, over sequences of directives | spec: list of formats defined, argument of LogLevel that counts; invariant over the sequence of directives |
| C84 | poundctl.c open_socket, with what system, OpenSSL and peer do as an argument, after the settings of C66 | spec: trusted, anonymous, right_host; case analysis, induction on statements and options |
| C85 | svc.c connect_nb, backend_probe, with the results of system calls as an argument | spec: peers with delays and how TCP and UNIX sockets report them; case analysis and arithmetic |

## What is modelled

| source | functions modelled | model |
|--------|--------------------|-------|
| http.c | `bio_http_reply*`, `bio_err_reply`, `error_response`, `acme_response`, redirect reply, `strtoclen`, `get_content_length`, `get_line`, `drain_eol`, `copy_bin`, `copy_chunks` | ReplyModel, XpdModel, ClenModel, StreamModel |
| http.c | string expansion with submatches and accessors | XpdModel |
| http.c | methods table, request line, header classification, header lists, `cs_locate_token`, `http_request_read`, URL and query functions | ReqModel, TokModel, UrlModel |
| http.c | `match_cond`, rewrite rules, forwarded-for scan, basic authentication | CondModel, TokModel/AclModel, AuthModel |
| http.c | request checks of `do_http`, `http_response_validate`, `backend_response`, the connection loop, Location headers | FrameModel, RespModel, LocModel |
| svc.c | balancers, `get_backend`, `kill_be`, `touch_be`, sessions and their keys, jobs, service selection, `need_rewrite`, control interface, balancer lists | BalModel, SessModel, KeyModel, JobModel, CondModel, LocModel, CtlModel |
| pound.c | worker pool, dispatcher, supervisor | PoolModel, DispModel, SupModel |
| config.c | ACL entries, Host conditions, number formats, named tables | AclModel, HostModel, NumModel, HashModel |
| cfgparser.c | scanner, string and number tokens | LexModel, NumModel |
| dynbe.c, resolver.c | update of generated backends, reference counts, name resolution and its jobs | DynModel, RefModel, DnsModel |
| http.c, svc.c | `select_backend`, the check of the backend's type in `do_http`, `get_backend` and `kill_be` with sessions, joint histories of balancer and session table | FailModel |
| genpat.c, bauth.c, json.c, log.c, mem.c, list.h, ht.h | the matchers, password files, JSON, log formats, buffers, lists, hash tables | PatModel, AuthModel, JsonModel, LogModel, SbufModel, ListModel, HashModel |
| `src/http.c` | `send_to_backend`, `add_forwarded_headers`, `add_ssl_headers`, `set_header_from_bio`, `strip_eol` | `FwdModel.v` |
| `src/http.c`, `src/svc.c` | `backend_update_stats`, `nsqrt`, `backend_stats_serialize` | `StatModel.v` |
| `src/svc.c` | `session_backend_index`, `find_backend_index`, `*_serialize` | `ShowModel.v` |
| `src/cfgparser.c`, `src/config.c` | `parser_find`, `gettkn`, `push_input`, `cfgparser`, `cfgparser_parse`, `cfg_parse_include`, `parser_loop`, `parse_not_cond`, `parse_match`, `parse_end_else`, Rewrite tables | `CfgModel.v` |
| `src/http.c` | `backend_response` lines 4007-4146 (websocket tunnel) | `TunModel.v` |
| src/metrics.c | all functions except allocation | MetModel |
| src/config.c | get_subjectaltnames, load_cert, https_parse_cert, SNI_server_name, the settings of certificates, the certificates in parse_listen_https; fnmatch of the C library for flags 0 (bracket expressions as an argument) | SniModel |
| src/config.c | parse_backend_internal, parse_backend, parse_use_backend, parse_emergency, parse_named_backend, backend_finalize, backend_resolve, backend_matrix_to_regular, cb_be_setup, service_finalize, str_is_ip, str_is_ipv4, str_is_ipv6 | FinModel |
| src/config.c | parse_match_mode, parse_cond_* (all conditions), parse_match, parse_not_cond, parse_cond, rewrite_op_alloc, parse_rewrite_op, parse_delete_header, parse_set_query_param, parse_else, parse_sub_rewrite, parse_response_else, parse_response_sub_rewrite, parse_rewrite, rewrite_rule_last_uncond, assign_dfl_ignore_case, parse_service with its conditions and modifications | RulModel |
| tmpl.c 1500-2110, 2520-3122 | tmpl_gettok, tmpl_gettext, tmpl_putback, tmpl_scan_arg, tmpl_scan_pipeline, the parsers of actions, find_action_parser, tmpl_scan_action, template_lookup, template_define, template_parse | TplModel.v |
| tmpl.c 80-110, 244-852, 2170-2445, 3122-3140 | tmpl_env_new, tmpl_pipeline_eval, the functions but printf, json_cast_to_integer, json_cmp, tmpl_env_print_json, tmpl_action_eval, template_run | TevModel.v |
| tmpl.c 854-1491 | func_printf, get_num, tmpl_va_arg_n, stringbuf_print_json (formatting of doubles by the C library is a parameter) | TfmModel.v |
| src/poundctl.c 21-513, 1345-1430 | parse_server, server_parsetab, toplevel_parsetab, find_keyword, get_socket_name, url_parse_host, url_parse_creds, url_parse, main (options) | PtlModel.v |
| src/poundctl.c 580-647, 835-1080, 1431-1442 | oi_getn, check_uri, send_request, command_list, command_disable, command_enable, command_delete_session, command_add_session, find_command (exit status and output: not here) | AskModel.v |
| src/poundctl.c 649-833, 880-1045 | xgets, read_response_line, read_response, print_json, exit status and output of commands (the stream is the list of all bytes received) | AnsModel.v |
| src/poundctl.c 1141-1325, 1443-1454 | find_template_file, line_start, line_no, read_template, main (order of reading templates and running the command) | TflModel.v |
| src/config.c 798-857, 1628-1868, 2425-2500, 2975-3028; src/cfgparser.c 146-157, 1208-1248; src/log.c 1034-1040 | set_proto_opt, disable_proto, parse_redirect_backend, parse_error_backend, parse_errorfile, session_type_parser, parse_session, parse_balancer, parse_log_suppress, parse_header_options, kw_to_tok, cfg_assign_string_from_file, http_log (whether to log) | DirModel.v |
| src/cfgparser.c 283-475, 742-785, 1107-1181; src/config.c 5023-5283; src/bauth.c 322-337; src/pound.c 904-916, 1210-1229 | workdir_get, workdir_ref, workdir_unref, workdir_free, get_include_wd, fopen_wd, fopen_include, filename_resolve, cfg_parse_includedir, push_input, cfgparser_open, cfgparser_finish, the password file fixups, parse_config_file (files), set_include_dir, feature_set | WdModel.v |
| src/config.c 3279-3346, 3404-3431, 3711-3772, 3863-3932, 4010-4085, 5161-5164; src/http.c 3163-3167, 4563-4603 | listener_alloc (clnt_check), foreach_client_cert, forbid_ssl_usage, https_parse_client_cert, https_parse_verifylist, https_parse_crlist, client_cert_cb, flush_service_client_cert, parse_listen_http and parse_listen_https (client certificates), do_http (handshake) | CctModel.v |
| src/config.c 3804-3847, 4086-4129; src/svc.c 3022-3059; src/http.c 1484-1664, 3921-3923, 4334-4339, 4547-4570; src/pound.h 947-955 | https_parse_honor_cipher_order, https_parse_allow_client_renegotiation, parse_listen_https (options), SSLINFO_callback, bio_callback, set_callback, is_readable, do_http (state of renegotiation) | RngModel.v |
| pound.c 558-675, 740-762, 1044-1247, detach | unlink_file, unlink_file_location, unlink_at_exit, pidfile_create, pound_atexit, cleanup, listener_init, main | StaModel.v |
| config.c 185-208, 2790-2827, 3269-3305, 3349-3445, 4162-4268, 5410-5436 | assign_address_string, assign_port_string, listener_parse_socket_from, find_listener_ident, resolve_listener_address, parse_control_socket, parse_control_listener, config_parse (the options that matter) | StaModel.v |
| pound.c 433-467, 736-762 | active_threads_incr, active_threads_decr, active_threads_wait, server (from sigwait on) | DwnModel.v |
| json.c 79-560, 583-606, 690-715; mem.c 21-60 | json_value_free, json_value_copy, json_new_*, json_array_*, json_object_set, mem2nrealloc | JmModel.v |
| svc.c, dynbe.c, http.c, pound.c, bauth.c (uses of locks) | all functions that lock, and their callers while locked | LkModel.v |
| bauth.c 292-407 | user_pass_free, pass_file_changed, pass_file_fill, basic_auth_internal (concurrent) | AurModel.v |
| config.c 2835-2972, 3279, 5136, 5150; log.c 895-907, 1026-1041; cfgparser.c 1376-1424 | canned_log_format, compile_canned_formats, parse_log_level, parse_log_format, http_log_format_find, http_log_format_check, cfg_assign_log_facility | LvlModel.v |
| poundctl.c 493-575, 1446-1454 | open_socket, main (connection) | CrtModel.v |
| svc.c 1504-1645 | connect_nb, backend_probe | CnbModel.v |

The exact lines are in the comment of each definition, and what is left out of a function is in the comment
at the head of its model.

Not modelled at all: TLS and certificates (OpenSSL), reading of the configuration file beyond the
lexer, number and list parsers named above (directive tables, scoping, `Include` directories,
templates of `poundctl`), syslog and file output of the log, `daemon`/`setuid`/`chroot`, signal handlers
beyond the supervisor, the contents of the metrics and of the listing of the control interface,
and `poundctl.c`.  Memory allocation
is assumed to succeed everywhere.

Simplifications shared by all models: the C implementation is LP64 with 8-bit signed `char`, two's
complement; C strings come without NUL; library functions do what their manuals say.

Known gaps between the concurrent models and the code: `backend_matrix_disable` sweeps without the mutex of
the service; `kill_be` reads `be->balancer` before it locks; `touch_be` reads `disabled` unlocked; `pass_file_fill`
replaces the entries without any lock.  These are data races; the models make one step of each.

## Findings

Where the code does not have a property.  The text is the comment of the theorem; it can refer to the theorem
before it in its file.  Further restrictions are in the comments of the theorems `..._partial`.

* `C03_retry_truncates_refuted`: The guarantee does not extend to transports whose read returns 0 with the retry flag set in the middle of a line: the line handed on is cut there although the whole line was consumed.
* `C04_strict_chunks_refuted`: The stricter reading of C04 (nothing may follow the announced bytes of a chunk on its line) does not hold: extra text is relayed as it stands.
* `C05_max_request_refuted`: ... and where it wraps, the limit of 10 does not stop 41 body bytes (the client can go on for ever).
* `C06_http10_chunked_refuted`: HTTP/1.0 with chunked coding: accepted, the forwarded head announces a chunked body, and no body is relayed.
* `C08_first_qmark_refuted`: The query does not start at the first '?' (as RFC 3986 has it) but at the last one, so that a second '?' makes part of the query count as path.
* `C09_delete_refuted`: With a repeated name only the first occurrence goes.
* `C11_replace_unique_refuted`: "Exactly one field of that name" is false when the client sent two: only the first is replaced, the second reaches the backend.
* `C12_accessor_refuted`: "%[query]" on a request without a query uses a variable that was not set, and a blank before the closing bracket of an accessor with argument never ends.
* `C12_end_refuted`: Every template that ends in a dollar or percent sign after a plain text is read beyond its end.
* `C12_group_refuted`: After a match of a literal pattern, which has no groups, "$0" reads an element of an array that does not exist; after any match the reference to the group after the last reads beyond the array.
* `C12_percent_refuted`: "$%" is documented to stand for a percent sign; it gives a dollar sign.
* `C13_undefined_refuted`: A Query condition on a request without a query passes NULL to the pattern matcher, whatever the pattern.
* `C16_high_bytes_refuted`: A byte above 127 is printed as a negative number: the two digits after the percent sign are not its code, and six further characters follow.
* `C18_uniform_refuted`: Not so: the draws are equally likely. random() yields 0 .. 2^31-1 while the numbers to reject are computed as for a 64-bit generator, so with a sum of 3 the 2^31-1 accepted numbers do not fall evenly on the three draws.
* `C20_empty_group_refuted`: A group without members crashes the selection.
* `C20_iwrr_hang_refuted`: Round robin, two backends and an emergency one: when both backends have died the request loops for ever, with the service locked, although the emergency backend is usable.
* `C20_zero_priority_refuted`: A backend of priority 0 (from an SRV record of weight 0) whose group has no other usable member is enabled and alive, yet no request is given to it.
* `C21_probe_race_refuted`: Not so when another backend's state changes between the two phases of a probe: the revived backend is counted twice.
* `C24_cancel_lost_refuted`: In that case the job is started although its cancellation was requested before, and its finaliser is not called, then or later.
* `C25_contain_bounds_refuted`: A byte 255 in the subject makes it read outside of its table; an empty pattern does so when it is compiled.
* `C25_contain_misses_refuted`: On every misleading pattern it misses some occurrence: for these C25 is false.
* `C26_crypt_only_refuted`: A hash made by crypt(3) is itself accepted as the password.
* `C26_long_line_refuted`: What follows the first 4095 bytes of a comment is taken for a line of its own.
* `C26_same_time_refuted`: A change of the file that leaves its modification time is not seen.
* `C26_unset_refuted`: An apr1 entry with a short salt, and an SHA entry with a short digest, are compared with memory outside of the entry.
* `C28_min_zero_refuted`: If the minimum is 0, the last worker can leave when a request has just arrived. The request then waits for the next arrival.
* `C28_start_refuted`: A request can wait although more workers could be started and no worker is free: if it arrives before an idle worker has taken an earlier one.
* `C28_startup_refuted`: If the idle timeout runs out while the server starts, the number of workers can fall below the minimum, as the main thread changes the counter without locking it.
* `C29_refuted`: After a disabled listener the elements of the poll array are out of step: accept is called on a listener that is not ready, and one that is ready is left out.
* `C30_core_refuted`: To disable or enable the global scope follows a null pointer.
* `C30_empty_refuted`: An empty component selects the first object: with a final slash, a request to disable a listener disables its first service instead.
* `C30_junk_refuted`: Components after that of the backend are ignored when a session is added.
* `C30_late_refuted`: An error may be reported although the change has been made.
* `C30_query_refuted`: With an empty query the length of the parameter is read uninitialised.
* `C30_signed_refuted`: A name that reads as a number with a sign is taken as an index: here the service "+0" is asked for and "a" is disabled.
* `C30_wrap_refuted`: Negative numbers are reduced modulo 2^32
* `C31_empty_refuted`: With an empty path the status is read uninitialised.
* `C31_method_refuted`: So does it for GET of a URI that is known for other methods only.
* `C31_unknown_refuted`: The empty URI in the table covers everything: an unknown URI gives the complete listing, or, with another method, the error for known URIs. Not found is never given.
* `C32_filter_refuted`: After pairs were removed by json_object_filter a lookup dereferences a NULL pointer.
* `C33_control_refuted`: Other control characters are written as they are, which JSON does not allow.
* `C33_grammar_refuted`: An escape \uXXXX of JSON is not understood; a trailing comma is.
* `C33_string_refuted`: The string of a backspace and "abcX" is written in a way that the reader takes for a code point: it writes outside of the memory it allocated.
* `C34_kill_refuted`: A request that was sent to a backend before its address disappeared from the DNS, and whose connection attempt fails afterwards, aborts the server: the assertion of kill_be fails.
* `C34_leak_refuted`: When the connection to a backend cannot be set up after connect (open_backend fails), the reference is never dropped: the backend is never destroyed, whatever happens next.
* `C34_log_refuted`: When no socket can be created, select_backend drops its reference and then describes the backend in the log: by then it can be gone.
* `C34_session_refuted`: If instead it gets a response that starts a session, the session outlives the backend, and the next request of the session uses a destroyed object.
* `C34_wakeup_refuted`: A reference dropped between the look of the remover thread at the backend and its wait wakes nobody up (backend_unref does not lock the service): nobody holds the backend any more, and the remover sleeps on.
* `C35_empty_refuted`: When an update uses the balancer after its end: exactly when the answer is empty, there are generated backends and the balancer has no others.
* `C36_305_refuted`: False: the body of a response 305 is not passed; it stays in front of the next response.
* `C36_continue_refuted`: False: after a response 100 no final response is passed, whatever follows.
* `C36_head_chunked_refuted`: False: the response to HEAD with the head of a chunked one; what follows is taken for chunks.
* `C36_interim_refuted`: False: any other interim response is taken for the final one, which stays unread.
* `C36_invalid_length_refuted`: False: a Content-Length that is not a number is used after its memory is released.
* `C36_timeout_refuted`: False: a body without announced end that does not begin in time is not passed; both connections are kept.
* `C36_twice_refuted`: False: of two lengths the last one counts, but the client gets both.
* `C37_inside_refuted`: A relative location with an absolute URL of the backend inside is taken for that URL: what precedes it is lost.
* `C37_ipv6_refuted`: URLs with an IPv6 address: the host is cut at the first colon, so the backend is not recognised.
* `C37_listener_refuted`: RewriteLocation 1, the default: every absolute URL is rewritten, wherever it points to (but for port 0), so that clients are never sent to another site.
* `C37_name_port_refuted`: A host known only by name: the port is not looked at.
* `C38_concat_refuted`: SLIST_CONCAT (not used by the program) with an empty second list forgets the end of the first: what is appended next replaces its elements.
* `C39_truncate_refuted`: Truncating to more than the size succeeds without setting the length.
* `C39_wrap_refuted`: Filling with a number of characters close to 2^64 passes the size check: it would write out of bounds.
* `C41_column_refuted`: The columns in messages are wrong after a tabulator following a word.
* `C41_text_refuted`: With an empty first line the byte before the buffer is read, whatever follows.
* `C42_D_refuted`: %D gives milliseconds, not microseconds; %{sec}t gives no seconds.
* `C42_accept_refuted`: A wrong format is accepted when a warning comes after the error; and text before an unknown conversion is printed twice.
* `C42_end_refuted`: A percent sign at the end of the format makes the program read past its end.
* `C43_lost_refuted`: If the server process ends before the supervisor is in sigwait, this is not noticed: there is no server process, and the supervisor waits.
* `C43_lost_term_refuted`: A request to terminate that arrives at that time is lost as well.
* `C43_single_refuted`: If the server process is stopped, and then a request to terminate arrives, a second server process is started.
* `C45_case_refuted`: With -case the field name, too, has to be written as "Host".
* `C45_exact_refuted`: -exact, which is also the default, means the same as -beg: a name is taken for equal to every longer name that starts with it.
* `C45_file_refuted`: The second pattern of a file is not taken literally but as an expression for the start of the value.
* `C45_unescaped_refuted`: '|' is not escaped: a condition for a host matches a request without it.
* `C46_mode_refuted`: C46 is false for file modes: numbers of 2^63 and more pass the range check.
* `C47_close_list_refuted`: False: "close" in a list in a response is not noticed: the connection that the response said would be closed goes on.
* `C47_local_refuted`: False: a request answered locally (a redirect, for instance): its body stays in the input, as the next request.
* `C48_add_refuted`: Insertion replaces the entry that was there, but the functions that add a name take it that the table still has the old one, and free the new one: from then on the table has an entry that has been freed, and this is the one found.
* `C48_foreach_refuted`: The loop meant to be safe for callbacks that delete entries does not do what makes it safe: it restores the threshold below which the library shrinks the table (and moves entries) but does not set it to 0 for the duration of the loop. The callback sees the original threshold.
* `C50_confined_refuted`: C50 is false in general: every file that the server can read, wherever it is, is sent to whoever asks for it by its absolute name.
* `C50_directory_refuted`: A directory gets the head of a success and then a second, complete, error reply.
* `C50_rules_refuted`: A request rule with a condition, even one that does not hold, makes every request fail: the name is taken from the last condition tried.
* `C51_head_refuted`: C51 is false for HEAD: the page is sent after a head that is a complete response.
* `C52_chain_memory_refuted`: And the names are copied into a block of one byte.
* `C52_chain_refuted`: A name that is an alias of an alias is never resolved, whatever length is allowed for chains: the backends are removed.
* `C52_error_refuted`: If the query cannot be made, whatever the error, no other attempt is scheduled.
* `C52_half_absent_refuted`: If one query fails for the moment and there are no addresses of the other kind, all backends are removed.
* `C52_half_found_refuted`: If one query fails for the moment and the other one succeeds, the backends whose addresses are of the first kind are removed.
* `C52_never_again_refuted`: After a query that could not be made the name is never looked up again.
* `C52_server_failure_refuted`: A server that reports its own failure, or refuses to answer, has all backends removed.
* `C52_two_jobs_refuted`: Disabled and enabled after a temporary failure it has two jobs from then on.
* `C52_wrong_job_refuted`: Disabled before its first answer, it has the first job of the program cancelled, whatever that is, and keeps its own.
* `C53_handshake_refuted`: C53 is false for backends that take the connection and fail later, such as in the TLS handshake: a client whose session leads there gets an error, the backend is not declared dead, and the session stays, with its lifetime renewed, so that the next attempt meets the same end, no matter how many other backends would serve it.
* `C53_hang_refuted`: C53 is false for round robin: when both backends of a group refuse, the request that finds out hangs for ever, with the service locked, although the emergency backend would serve it.
* `C53_matrix_refuted`: C53 is false for a session with a dynamic backend's template, which the control interface can add: the next request with that key aborts the program.
* `C54_long_subject_refuted`: False: a certificate whose subject does not fit into the line buffer: the client's own X-SSL-Subject is left.
* `C54_no_certificate_refuted`: False: a client without a certificate (it is asked for one, but need not have it) tells the backend whatever it likes in the fields about the certificate: they are neither replaced nor removed.
* `C54_second_refuted`: The same in general: whatever is in the second field and after, it arrives.
* `C54_serial_refuted`: False: serial numbers of 64 bits and more (certificate authorities have to use at least 64 bits of randomness) are all shown as -1: the backend cannot tell the certificates apart by it.
* `C54_twice_refuted`: False: only the first field of a name is edited. A client that sends the fields twice has its own values delivered as well, behind the proxy's: address, protocol, port, cipher and host name.
* `C55_clock_refuted`: False: the times are never negative. They are taken from the clock that shows the time of the day; if it is set back during the only request, the average is negative.
* `C56_session_refuted`: False: the number shown for a session is that of its backend. It is too large by the number of backends in the balancers after that of the backend.
* `C57_misplaced_refuted`: Expected: a number, a string or another token in the place of a keyword is a syntax error. It is reported as one, but the configuration is accepted all the same, as if the token were not there: the rest of its line is then read as a statement.
* `C57_not_not_refuted`: Expected: [NOT] negates the condition that follows it, so that in "NOT NOT Path a", "Header b" the second condition is not negated. The parser of the outer NOT goes on after the inner one: the next condition is made part of it; and if the next statement is not a condition, the configuration is refused.
* `C57_response_refuted`: Expected: the rules for responses take the conditions and the actions that apply to responses only. The Else of an Else of such a rule, its Match and its NOT take those of requests; elsewhere in the rule the same statements are refused.
* `C58_flush_refuted`: A flush that fails is not noticed: the tunnel goes on, and may end for want of traffic with bytes that never arrived.
* `C58_half_close_refuted`: A client that closes its sending direction loses the answers: in whatever history, if the thread waits in poll and the client has closed, all its bytes having arrived, the next steps of the thread end the tunnel, and nothing the backend sent and the client has not yet received is ever delivered, not even what had arrived before the client closed.
* `C59_empty_refuted`: A single service without backends, for which a configuration file earns no more than a warning, makes all metrics unavailable: its backends are listed as null instead of an empty array, and any request for the metrics is answered with an internal server error.
* `C59_escape_refuted`: Names are not escaped: if the name of a service contains a quotation mark, then the line about the service can have labels that are not there.
* `C59_stateset_refuted`: In a family of type stateset, OpenMetrics wants every sample to have a label whose name is that of the family. No sample has one.
* `C59_threads_refuted`: Otherwise not: the address of the metric is in a static variable. Whatever the state, two threads can get into each other's way such that the samples about workers are missing from the first text and are twice in the second.
* `C60_case_refuted`: Host names do not depend on case, the choice does: if the names of the certificates have no capitals and no wildcards, a client that asks for a name with a capital gets the default certificate, also if there is one for that name.
* `C60_directory_refuted`: With a certificate directory, the default certificate depends on the order in which the system lists the directory: any usable certificate of it that has a common name can be the one.
* `C60_no_cn_refuted`: A certificate whose names are all subjectAltNames, with no common name, is refused, and the configuration with it.
* `C60_settings_refuted`: A directive that the manual says must come after all certificates (ClientCert, Ciphers, lists of CAs and revocations) is accepted between two of them, and then does not apply to the second.
* `C60_wildcard_refuted`: A wildcard certificate is for one label in front of its domain (RFC 6125, 6.4.3). Here it is chosen for any number of labels, and also for none.
* `C61_ipv4_refuted`: No IPv4 address is: a backend with such an address and Resolve first, all or srv is not created from its address, but is left to be looked up in DNS by the digits as if they were a name.
* `C61_no_address_refuted`: A reference to a global backend without Address should be an error in the configuration. It crashes the program (a null pointer is copied as a string).
* `C61_path_refuted`: The path of a UNIX socket may have 108 bytes, and then its address has 111: more than the 110 of struct sockaddr_un, which the system refuses.
* `C61_priority_refuted`: The manual allows a priority of 0; it is refused.
* `C61_use_backend_refuted`: UseBackend "name" should have the same effect as the definition in its place. It has the effect of the definition with Priority 5 and Disabled no, whatever the definition says: the weight of a global backend is forgotten and a disabled one is enabled.
* `C62_empty_file_refuted`: With -file and a file without lines that count, no line of the file matches. The condition is nevertheless met by every request.
* `C62_empty_or_refuted`: Match OR without conditions, a disjunction of nothing, is false of every request. It is accepted, and met by every request.
* `C62_ignore_case_refuted`: IgnoreCase in a service is documented to override the global setting for that service. It replaces the global setting: the next service, which says nothing about case, ignores it as well.
* `C62_not_not_refuted`: A double negation followed by another condition should be the conjunction of two conditions. The second becomes a further operand of the outer negation, and is ignored: the service accepts every request with that path, whatever its header fields.
* `C63_block_refuted`: A block whose name has been defined before is not a definition and the use of it: what follows it is not taken as its body, and the end of it is an error.
* `C63_comment_refuted`: A text that ends in an asterisk within a comment is never read to its end: the asterisk is read again and again.
* `C63_ends_refuted`: Reading a text need not come to an end: if it ends in a function and a digit, the digit is read as an argument again and again (and an argument added each time).
* `C63_fraction_refuted`: A number with a fraction, which the manual allows, is refused.
* `C63_function_refuted`: A word that is no function is not reported where it stands among the arguments of one: it is left out.
* `C63_number_refuted`: A number that no long holds is not always reported: the multiplication overflows first.
* `C63_quote_refuted`: A quote after a backslash is not part of the string: it ends it.
* `C63_string_refuted`: A string that lacks its end is not reported as an error if the action begins with it: an assertion fails.
* `C63_template_refuted`: A template without an argument, which the manual allows, is refused if it is the last action or another action follows at once; and if text follows, a text is added that is a null pointer.
* `C63_with_variable_refuted`: A variable is a pipeline, yet with and range of a variable are refused whatever follows, and the name of the variable is freed twice.
* `C64_and_refuted`: The value of [and] and [or] is not true or false, but one of the arguments.
* `C64_bool_refuted`: true equals false.
* `C64_break_refuted`: break where a range has no elements ends not the range, but everything: whatever follows is not output.
* `C64_compare_refuted`: A number and an integer are compared without the fraction: 3/2 equals 1 and is not greater.
* `C64_continue_refuted`: continue within an if does not stop the iteration: only the rest of the if is left out, and what follows it is output.
* `C64_ends_refuted`: A template may use itself, if it is defined twice, and then running it never ends, whatever the value.
* `C64_fraction_refuted`: Numbers are output without a fraction: 3/2 is output as 2, and so is div 3 2.
* `C64_index_refuted`: Indexing an array by a number beyond its end is neither an error nor null: the value is the array.
* `C64_no_arguments_refuted`: [and], [or] and [index] without arguments are read, but then a pointer is followed that is null or not set.
* `C64_scope_refuted`: The scope of a variable does not end with the action that declares it: it can be seen in a template that is used there, though defined elsewhere.
* `C64_small_refuted`: A number that is not zero is empty if it is between -0.001 and 0.001.
* `C64_template_refuted`: A template used without an argument, if text follows, makes the program follow a null pointer.
* `C65_array_refuted`: %s of an array reads a value that is not there.
* `C65_conversion_refuted`: Conversions of printf(3) such as %ld and %c are not converted, but output as they are.
* `C65_float_width_refuted`: The width of %f, %e and %g is ignored without a precision: the C library is told the width 0.
* `C65_float_zero_refuted`: The flag 0 of %f is ignored with a precision, though printf(3) says that for integers only.
* `C65_hex_refuted`: %x takes 32 bits of the number, though others take 64, and with the flag # a zero has a prefix.
* `C65_left_refuted`: A negative width from an argument does not move the text to the left edge, but puts a blank before the number.
* `C65_missing_refuted`: A conversion without any arguments follows a null pointer.
* `C65_octal_refuted`: The digits of an octal number with a precision are cut off, to as many as it had before zeros were added.
* `C65_overflow_refuted`: A number with a precision of 63 or more is written beyond the end of the buffer.
* `C65_position_refuted`: The number of an argument, as in %1$s, is off by one: 1 fails an assertion, and 2 is the first argument.
* `C65_star_refuted`: The argument that gives a precision is not skipped: it is also the value that is output.
* `C65_wide_refuted`: The largest width makes the size of the buffer for the string wrap around to 0, and it is written all the same.
* `C65_zero_precision_refuted`: With a precision of 0 the whole string is output, not nothing.
* `C66_abbreviation_refuted`: Refuted: that only the directive Control is looked for. Any word that is a beginning of that name is taken for it, even the single letter C, which pound itself refuses.
* `C66_at_refuted`: Refuted: that credentials are only what stands before the host. With an @ in the path its beginning becomes the user, and poundctl connects to what follows, with those credentials.
* `C66_ipv6_refuted`: Refuted: that an IPv6 address can be given in brackets. It is cut at the first colon, so the host is "[" and what precedes it, and the rest the port.
* `C66_long_refuted`: Refuted: the same, if a line before, a comment say, has 4095 characters or more.
* `C66_newline_refuted`: Refuted: that poundctl finds the socket pound uses. A last line without a newline is not looked at, whatever it says, though pound reads it.
* `C66_order_refuted`: Refuted: that the order of options does not matter. A URL or -k given before -S goes to the default server, not to the one in use: with "-s URL -S NAME" the URL of the section is used.
* `C66_template_path_refuted`: Refuted: that TemplatePath in .poundctl says where templates are. It is overwritten by the environment or the default in any case.
* `C66_verify_refuted`: Refuted: that peers are verified unless -k or Verify says otherwise. The manual says so; in a Server section that does not mention Verify verification is off, so poundctl sends the credentials to whoever answers.
* `C67_credentials_refuted`: Refuted: that the credentials of the URL are sent. If they are longer than 48 bytes base64 is broken into lines, and so is the header: pound takes the user with the beginning of the password, and drops the rest as a header that is none.
* `C67_key_refuted`: Refuted: that any key can be given. It is put in the URL as it is: the rest after an ampersand is lost, so another session is removed.
* `C67_name_refuted`: Refuted: that listeners and services can be named by their names in delete and add, as the manual says and as pound would accept: nothing is sent.
* `C67_space_refuted`: Refuted: the same; with a space in it the request is no request for pound.
* `C67_user_refuted`: Refuted: that a user without a password is sent, which the manual allows: there is no Authorization field at all.
* `C68_blank_refuted`: Refuted: the same, for blanks after the length.
* `C68_chunked_refuted`: Refuted: the same, for chunked bodies, which clients of HTTP/1.1 have to understand.
* `C68_long_refuted`: Refuted: that a long field does no harm. With 4095 characters its end is taken for the end of the head.
* `C68_silent_refuted`: Refuted: that exit status 0 means the object was switched. For a redirect nothing happens, and the daemon answers true.
* `C68_trailing_refuted`: Refuted: that what follows the value is looked at. Anything that begins with the word true is success.
* `C68_truncated_refuted`: Refuted: that an answer which breaks off is noticed. The JSON reader is given memory that was not set.
* `C68_type_refuted`: Refuted: that other servers of HTTP are understood (the daemon can be behind one). A parameter of the type is refused.
* `C69_empty_refuted`: Refuted: that an empty file, which defines no template, is read as one. It is taken for an error of reading.
* `C69_options_refuted`: Refuted: that option -T sets the template file and -t the name of the template (poundctl.8, SYNOPSIS and OPTIONS): it is the other way round.
* `C69_unneeded_refuted`: Refuted: that commands which show nothing by a template do not depend on the file. A fault in it ends also disable, off, enable and on, and JSON output, before anything is asked.
* `C69_verbatim_refuted`: Refuted: that a template file requested by option or TemplateFile is used verbatim and the search path not searched (poundctl.8). If some element of the path is a regular file, such as the default ~/.poundctl.tmpl, it may be read instead, whatever the name.
* `C70_code_refuted`: Expected: other numbers are refused. Only their value modulo 2^32 is looked at.
* `C70_session_refuted`: Expected: a section without Type is refused. A later section may leave out anything that an earlier one has said.
* `C70_slash_refuted`: Expected: a URL with a path, even a mere slash, is used as it is. The slash is dropped.
* `C71_off_refuted`: Expected (doc/pound.texi): [HeaderOption off] disables the additional header lines. It is refused.
* `C71_six_refuted`: ... which the manual does not have: expected is a refusal.
* `C72_absolute_refuted`: Refuted: that the include directory does not matter for a name that begins with a slash. If the directory of -W include-dir is gone (it was there when the option was read), such files are not opened either.
* `C72_freed_refuted`: Refuted: that the directory is kept while password files need it. Each Cert statement with a relative name drops a reference it did not take: with as many of them as password files, the directory is freed at the end of the configuration and used at each request.
* `C72_includedir_refuted`: Refuted: that IncludeDir sets the directory. If nothing has been looked for before it, pound drops a reference of a directory that it does not have: a null pointer is followed.
* `C72_jail_refuted`: Refuted: that any password file can be named with RootJail. The directory of one in the root directory is taken to be the empty name, which cannot be opened.
* `C72_nested_refuted`: Refuted: that the password files of Rewrite sections inside others are treated in the same way. They are passed over: a relative name is looked for in the root directory of a daemon or of the jail.
* `C72_place_refuted`: Refuted: that password files are in the include directory of the BasicAuth statement, as all other files are. A later IncludeDir moves them.
* `C73_depth_refuted`: Refuted: that the depth has a default, and that it may be given with every mode. Modes 1 to 3 need it, and mode 0 must not have it.
* `C73_issuer_refuted`: Refuted: that the conditional ClientCert is true if the client presents the certificate of the file. The certificate must also be verified: if verification needs a root among the trusted certificates, and none is named, no certificate satisfies a condition, not even the one named in it.
* `C73_order_refuted`: Refuted: that Cert must precede the other directives, as the manual says. A Cert after VerifyList is accepted, and clients that ask for its name are refused whatever certificate they show.
* `C73_rewrite_refuted`: Refuted: that the conditional works in Rewrite sections. It is accepted there, in HTTP listeners too, but it does not make the listener ask for certificates: it is false for every client.
* `C74_modern_refuted`: It is not so that mode 0 keeps clients from renegotiating: from OpenSSL 1.1.0 on the states are numbered from 0 (the first message of a client is read in state 20), the numbers that are waited for never come, and mode 0 does the same as mode 1.
* `C74_wide_refuted`: It is not so that other options are left alone: where options have 64 bits and SSL_OP_ALL has bit 31 (OpenSSL 3), all the upper ones are set, as the options were kept in an int.
* `C75_body_refuted`: It is not so that TimeOut 0 is no limit for backends: the body of a response without length is dropped unless it is there with the header.
* `C75_long_refuted`: It is not so that a longer time gives the client more: with more than 2147483 seconds, which the configuration may have (C46), the milliseconds overflow or are negative and nothing is ever read.
* `C75_signals_refuted`: It is not so that the time is an upper bound with signals: each begins the wait anew.
* `C76_failed_refuted`: A second pound with the same configuration, that fails since the address of its HTTP listener is in use, has by then put its own socket, that nobody will serve, in the place of the control socket of the pound that runs
* `C76_late_jail_refuted`: A RootJail statement after the Control section: the control socket is never removed, and when pound ends it removes instead a file of the same name inside the jail, if there is one
* `C76_long_refuted`: A name of 108 bytes is accepted, but pound never starts with it: it does not fit in the address with the byte that ends it
* `C76_relative_refuted`: A relative name and a pound that detaches: the control socket is never removed, for pound looks for it from / when it ends
* `C76_rights_refuted`: Whatever stands in a directory that the User of the configuration may not write to stays when pound ends: pound has given up its rights by then. So the PID file in a directory of root is never removed by a pound with a User statement
* `C76_stray_refuted`: A Control section with two Socket statements: only the last one is made, but the files of both names are removed when pound ends, although pound has not made the first
* `C76_top_refuted`: A RootJail and a socket directly in the root directory: the control socket is never removed, for the name of its directory comes out empty
* `C77_groups_refuted`: The supplementary groups stay those of whoever started pound: it does not give them up. So with User and Group set, but started by root with the group 0 among its groups, pound may write to every directory that the group 0 may write to
* `C78_from_refuted`: The other way round, an Address or Port after SocketFrom is accepted and has no effect: the same two statements, in the other order
* `C79_clock_refuted`: The end of the wait is a time of the clock of the system. If that is set back after the wait began, pound still sleeps, and cannot go on, arbitrarily long after Grace has passed.
* `C79_next_refuted`: and if it waits, then the end of the last request in progress can end the program before that worker takes the next connection of the queue, although no time of Grace has passed.
* `C79_queue_refuted`: "Existing connections are answered for the time of Grace" does not hold of those that have been accepted and wait for a worker: only the workers that serve are counted. If none serves at the signal, the program can end at once, and every connection of the queue is closed without an answer;
* `C80_empty_copy_refuted`: Nothing can be appended to the copy of an empty array: the memory it has no use for is released and kept, and its release, which is what the caller does next, releases it again.
* `C80_gap_refuted`: A value put at a place beyond the end leaves places before it that hold no value and were never written, and reading or releasing the array follows them: the loop that should clear them runs from the new size to the old one.
* `C80_replace_refuted`: A value that replaces an element of an array does not release it, unlike that of an object: its memory stays, and belongs to nothing.
* `C81_deadlock_refuted`: And such a deadlock can be: a dynamic backend is disabled and enabled again, by control requests. The second has the mutex of the backend when it wants to queue the next update, while the timer, which has the mutex of the jobs, wants that of the backend to cancel the last one. All the sessions and jobs of pound stop, and then all the requests to the service.
* `C81_disable_refuted`: and one that disables a dynamic backend removes the backends it has made, and their sessions, without the mutex, at the same time as a request is looking for its session.
* `C81_locate_refuted`: A control request that names a backend goes through the list of backends without the mutex, while an update from the name server may remove some:
* `C82_deleted_refuted`: A request that was reading an older state of the file goes on after a later one has been read. All the requests have ended, the time of the file is the one of the list, and a user who was deleted from it is let in, now and for ever: every request without another one at the same time says so.
* `C82_refused_refuted`: Two requests of a user who is in the file before and after it is saved again (here: unchanged). The first reads it anew, and releases the old entries; the second finds the time of the file right and the list empty, and is refused.
* `C82_released_refuted`: The same, with the second request in the midst of the list: it goes on from an entry that is released.
* `C84_anonymous_refuted`: Refuted: that a server must show a certificate. One that shows none, with an anonymous cipher, passes the verification.
* `C84_host_refuted`: Refuted: that a verified server is the one asked for. A trusted certificate of any other host is as good, so whoever has one gets the password.
* `C85_long_refuted`: Refuted: that the timeout is the one of ConnTO. From 2147484 seconds on, which the configuration accepts, the number of milliseconds is out of range.
* `C85_socket_file_refuted`: Refuted: that a backend behind a socket file is waited for. If its queue is full the connection fails at once, whatever the timeout is, even if there is room again a millisecond later; the backend is then taken for dead.

Seen in the code but not modelled: `str_is_ip` never recognises IPv4 addresses (config.c 4687-4760), so that they are
looked up in the DNS when a backend is resolved dynamically.

## Trusted base

* Coq's kernel (coqc 8.16.1; `vcheck` runs the check of the compiled files).
* The hand translation from C to Gallina, as far as it is documented in the comments.
* The statements: `XSpec.v` and `XProps.v` have to be read to be believed.
* Axioms: none.  `Print Assumptions` answers "Closed under the global context" for every theorem listed
  below.  No axiom is declared, none of the standard library is used, no other library is imported.

`Print Assumptions`, theorem by theorem (generated by loading every `XProps` file):

* `AclProps.v`: C17_match, C17_accepted, C17_order, C17_entry_unique, C17_named, C17_named_twice, C17_refused_partial, C17_malformed_mask_accepted, C27_rightmost, C27_fallback, C27_complete, C27_absent, C27_fields, C27_chain, C27_settings — all closed under the global context.
* `AnsProps.v`: C68_value_partial, C68_status, C68_reply_partial, C68_error, C68_success, C68_ends, C68_told_partial, C68_shown_partial, C68_truncated_refuted, C68_trailing_refuted, C68_silent_refuted, C68_type_refuted, C68_blank_refuted, C68_chunked_refuted, C68_long_refuted — all closed under the global context.
* `AskProps.v`: C67_request_partial, C67_credentials_partial, C67_switch_partial, C67_session_partial, C67_object, C67_commands, C67_list_partial, C67_credentials_refuted, C67_user_refuted, C67_name_refuted, C67_key_refuted, C67_space_refuted — all closed under the global context.
* `AurProps.v`: C82_steady, C82_alone_partial, C82_refused_refuted, C82_released_refuted, C82_deleted_refuted — all closed under the global context.
* `AuthProps.v`: C26_granted_partial, C26_granted_entries, C26_defined_partial, C26_file_partial, C26_scheme, C26_removed, C26_unreadable, C26_apr_roundtrip, C26_quoted, C26_long_line_refuted, C26_crypt_only_refuted, C26_unset_refuted, C26_same_time_refuted — all closed under the global context.
* `BalProps.v`: C18_every_draw_selects, C18_proportional, C18_select, C18_uniform_refuted, C19_fair, C19_fair_anywhere, C20_random, C20_iwrr_partial, C20_iwrr_hang_refuted, C20_zero_priority_refuted, C20_empty_group_refuted, C21_counters, C21_has_backends, C21_mode_effect, C21_revive_effect, C21_remove_effect, C21_probe_race_refuted, C44_ordered, C44_lookup, C44_running — all closed under the global context.
* `CctProps.v`: C73_accepted, C73_plain, C73_mode_partial, C73_condition_partial, C73_issuer_refuted, C73_rewrite_refuted, C73_depth_refuted, C73_order_refuted — all closed under the global context.
* `CfgProps.v`: C57_keyword, C57_grammar, C57_include, C57_include_refused, C57_ends, C57_closed, C57_misplaced_refuted, C57_not_not_refuted, C57_response_refuted — all closed under the global context.
* `ClenProps.v`: C01_content_length_exact, C01_content_length_refused, C01_content_length_bounds, C02_chunk_size_exact, C02_chunk_size_refused, C02_chunk_size_bounds, C46_config_length_exact — all closed under the global context.
* `CnbProps.v`: C85_connect_partial, C85_success, C85_probe_partial, C85_alive, C85_long_refuted, C85_socket_file_refuted — all closed under the global context.
* `CondProps.v`: C13_formula_partial, C13_steps, C13_steps_unique, C13_error, C13_short_circuit, C13_undefined_partial, C13_undefined_refuted, C14_rules, C14_rule, C14_branch, C14_separate, C15_first, C15_truth, C15_enabled — all closed under the global context.
* `CrtProps.v`: C84_sent_partial, C84_verified_partial, C84_works, C84_client, C84_host_refuted, C84_anonymous_refuted — all closed under the global context.
* `CtlProps.v`: C30_unique, C30_disable_partial, C30_session_partial, C30_session_key, C30_service, C30_only_target, C30_nochange, C30_get, C30_empty_refuted, C30_signed_refuted, C30_wrap_refuted, C30_core_refuted, C30_late_refuted, C30_query_refuted, C30_junk_refuted, C31_route, C31_path, C31_endpoint, C31_unknown_refuted, C31_method_refuted, C31_empty_refuted — all closed under the global context.
* `DirProps.v`: C70_redirect_partial, C70_location_partial, C70_slash_refuted, C70_code_refuted, C70_error_partial, C70_errorfile, C70_session, C70_session_refuted, C71_suppress, C71_suppress_words, C71_six_refuted, C71_header_option, C71_off_refuted, C71_disable, C71_disable_limits — all closed under the global context.
* `DispProps.v`: C29_ready_partial, C29_prefix_partial, C29_once, C29_refuted — all closed under the global context.
* `DnsProps.v`: C52_follow, C52_absent, C52_temporary_partial, C52_disabled, C52_half_found_refuted, C52_half_absent_refuted, C52_server_failure_refuted, C52_error_refuted, C52_total, C52_chain_refuted, C52_chain_memory_refuted, C52_srv_order, C52_one_job_partial, C52_switch_partial, C52_never_again_refuted, C52_two_jobs_refuted, C52_wrong_job_refuted — all closed under the global context.
* `DwnProps.v`: C79_drained, C79_awake, C79_not_early, C79_time_up, C79_at_once, C79_last, C79_queue_refuted, C79_next_refuted, C79_clock_refuted — all closed under the global context.
* `DynProps.v`: C35_set, C35_objects, C35_removed, C35_balancer, C35_empty_refuted, C35_disabled, C35_srv, C35_srv_groups, C35_srv_weight_refuted — all closed under the global context.
* `FailProps.v`: C53_random, C53_iwrr_partial, C53_finds, C53_course, C53_handshake_refuted, C53_hang_refuted, C53_matrix_refuted — all closed under the global context.
* `FinProps.v`: C61_accepted, C61_values_partial, C61_reference_partial, C61_use_backend_refuted, C61_no_address_refuted, C61_numeric_partial, C61_ipv4_refuted, C61_path_refuted, C61_priority_refuted — all closed under the global context.
* `FrameProps.v`: C06_accept_iff, C06_framing_unique, C06_refused, C06_unknown_coding, C06_forwarded_framing, C06_relay_agrees, C06_relay_agrees_http10_partial, C06_http10_chunked_refuted, C06_other_headers_irrelevant, C06_limits, C06_too_large, C06_read_heads_good — all closed under the global context.
* `FwdProps.v`: C54_delivered, C54_composed, C54_untouched, C54_others, C54_set, C54_client_partial, C54_once_partial, C54_twice_refuted, C54_second_refuted, C54_no_certificate_refuted, C54_long_subject_refuted, C54_serial_refuted — all closed under the global context.
* `HashProps.v`: C48_strings, C48_header_names, C48_cnames, C48_backends, C48_add_refuted, C48_foreach_refuted, C48_foreach_restores — all closed under the global context.
* `HostProps.v`: C45_literal_partial, C45_file_partial, C45_exact_refuted, C45_unescaped_refuted, C45_file_refuted, C45_case_refuted — all closed under the global context.
* `JmProps.v`: C80_copy, C80_free, C80_copy_null_partial, C80_outlives, C80_new, C80_append_partial, C80_get, C80_past_end, C80_set, C80_empty_copy_refuted, C80_gap_refuted, C80_replace_refuted — all closed under the global context.
* `JobProps.v`: C24_order, C24_ids, C24_cancel_proper, C24_once, C24_no_loss, C24_due, C24_cancel_partial, C24_cancel_lost_refuted, C24_compare, C24_difference — all closed under the global context.
* `JsonProps.v`: C32_map, C32_sorted, C32_other, C32_filter_refuted, C33_roundtrip_partial, C33_wellformed_partial, C33_written_partial, C33_read_partial, C33_code_point, C33_total, C33_bounds_partial, C33_string_refuted, C33_control_refuted, C33_grammar_refuted — all closed under the global context.
* `KeyProps.v`: C40_cookie, C40_header, C40_basic, C40_url, C40_parm, C40_cookie_unique, C40_cut, C40_used — all closed under the global context.
* `LexProps.v`: C41_tokens, C41_unique, C41_quote, C41_putback, C41_putback_room, C41_no_cycle, C41_include, C41_text_partial, C41_text_missing, C41_text_refuted, C41_column_refuted — all closed under the global context.
* `ListProps.v`: C38_dlist, C38_loop, C38_distinct, C38_slist, C38_queue, C38_concat_refuted, C38_shift_empty — all closed under the global context.
* `LkProps.v`: C81_no_deadlock_partial, C81_only_timer_partial, C81_deadlock_refuted, C81_exclusive, C81_sleep, C81_network, C81_end, C81_guarded_partial, C81_no_race_partial, C81_locate_refuted, C81_disable_refuted — all closed under the global context.
* `LocProps.v`: C37_backend_only, C37_backend, C37_relative, C37_off, C37_header, C37_header_rewritten, C37_listener_refuted, C37_inside_refuted, C37_ipv6_refuted, C37_name_port_refuted, C37_destination, C37_destination_other — all closed under the global context.
* `LogProps.v`: C42_print_partial, C42_silent, C42_table, C42_accept_refuted, C42_end_refuted, C42_D_refuted, C42_sec_refuted — all closed under the global context.
* `LvlProps.v`: C83_format, C83_names, C83_accept, C83_define, C83_facility — all closed under the global context.
* `MetProps.v`: C59_metrics_partial, C59_unambiguous, C59_distinct, C59_index, C59_empty_refuted, C59_escape_refuted, C59_stateset_refuted, C59_threads_partial, C59_threads_refuted — all closed under the global context.
* `NumProps.v`: C46_unsigned, C46_int, C46_range, C46_trailing, C46_mode_partial, C46_mode_digits, C46_mode_refuted, C46_bool — all closed under the global context.
* `PatProps.v`: C25_exact, C25_prefix, C25_suffix, C25_contain_sound, C25_contain_decides_partial, C25_contain_partial, C25_contain_borderless_partial, C25_contain_misses_refuted, C25_contain_refuted, C25_contain_bounds_refuted — all closed under the global context.
* `PoolProps.v`: C28_fifo, C28_counts, C28_awake, C28_progress, C28_leave, C28_start_refuted, C28_min_zero_refuted, C28_startup_refuted — all closed under the global context.
* `PtlProps.v`: C66_settings_partial, C66_named, C66_order_refuted, C66_verify_refuted, C66_template_path_refuted, C66_socket_partial, C66_no_socket_partial, C66_newline_refuted, C66_long_refuted, C66_abbreviation_refuted, C66_url_partial, C66_file, C66_scheme, C66_at_refuted, C66_ipv6_refuted — all closed under the global context.
* `RefProps.v`: C34_destroy, C34_released, C34_remover_ends, C34_alive, C34_job_ends, C34_safe_partial, C34_kill_refuted, C34_session_refuted, C34_log_refuted, C34_leak_refuted, C34_wakeup_refuted — all closed under the global context.
* `ReplyProps.v`: C51_codes, C51_error, C51_head_refuted, C51_error_backend, C51_redirect, C51_json, C51_metrics, C50_selected, C50_served_partial, C50_missing_partial, C50_confined_partial, C50_confined_refuted, C50_directory_refuted, C50_rules_refuted — all closed under the global context.
* `ReqProps.v`: C07_request_line_accepted, C07_method_not_allowed, C07_bad_request, C07_unambiguous, C49_field_line_iff, C49_head_complete, C49_head_sound, C49_head_texts, C11_add_new, C11_keep, C11_replace_partial, C11_append, C11_others_unchanged, C11_stays_good, C11_replace_unique_refuted — all closed under the global context.
* `RespProps.v`: C36_dialogue, C36_relayed_partial, C36_framed_partial, C36_error, C36_malformed, C36_cut, C36_total, C36_continue_refuted, C36_interim_refuted, C36_invalid_length_refuted, C36_head_chunked_refuted, C36_305_refuted, C36_twice_refuted, C36_timeout_refuted, C47_reuse_partial, C47_http10, C47_asked_to_close, C47_close_list_refuted, C47_local_refuted, C47_stale_refuted, C47_timeout_refuted — all closed under the global context.
* `RngProps.v`: C74_options, C74_accepted, C74_wide_refuted, C74_refused_partial, C74_backend_partial, C74_unharmed, C74_allowed, C74_modern_refuted, C75_bound_partial, C75_client, C75_backend, C75_served, C75_unlimited, C75_body_partial, C75_signals_refuted, C75_long_refuted, C75_body_refuted — all closed under the global context.
* `RulProps.v`: C62_services, C62_options, C62_truth_partial, C62_file_partial, C62_empty_file_refuted, C62_formed, C62_empty_or_refuted, C62_not_not_refuted, C62_ignore_case_refuted — all closed under the global context.
* `SbufProps.v`: C39_contents, C39_bounds, C39_finish, C39_finish_failed, C39_success, C39_string, C39_size, C39_error_refuted, C39_time_empty, C39_truncate_refuted, C39_wrap_refuted — all closed under the global context.
* `SessProps.v`: C22_table, C22_sticky, C22_deleted, C22_killed, C22_expired, C23_ordered, C23_consistent, C23_scheduled, C23_run, C23_expiry_time — all closed under the global context.
* `ShowProps.v`: C56_backends, C56_numbers, C56_all, C56_listener, C56_service, C56_parent, C56_sessions_partial, C56_session_refuted — all closed under the global context.
* `SniProps.v`: C60_choice_partial, C60_names, C60_accepted, C60_settings_partial, C60_settings_refuted, C60_case_refuted, C60_wildcard_refuted, C60_no_cn_refuted, C60_directory_refuted — all closed under the global context.
* `StaProps.v`: C76_socket, C76_pidfile, C76_removed_partial, C76_pid_removed_partial, C76_others_partial, C76_late_jail_refuted, C76_relative_refuted, C76_top_refuted, C76_rights_refuted, C76_stray_refuted, C76_failed_refuted, C76_long, C76_long_refuted, C77_identity, C77_final, C77_user, C77_unknown, C77_jail, C77_groups_refuted, C78_address, C78_from_partial, C78_from_refuted, C78_names — all closed under the global context.
* `StatProps.v`: C55_report_partial, C55_rounded, C55_unused, C55_clock_refuted — all closed under the global context.
* `StreamProps.v`: C03_line_reader, C03_line_accepted_iff, C03_line_safe, C03_retry_truncates_refuted, C04_relay_sound, C04_relay_complete, C04_relay_terminates, C04_strict_chunks_refuted, C05_max_request_partial, C05_total_overflow_refuted, C05_max_request_refuted — all closed under the global context.
* `SupProps.v`: C43_restart_partial, C43_persist, C43_terminate, C43_alarm, C43_single_partial, C43_lost_refuted, C43_lost_term_refuted, C43_single_refuted — all closed under the global context.
* `TevProps.v`: C64_outputs_partial, C64_errors_partial, C64_unambiguous, C64_ends_partial, C64_ends_refuted, C64_continue_refuted, C64_break_refuted, C64_small_refuted, C64_compare_refuted, C64_bool_refuted, C64_and_refuted, C64_index_refuted, C64_no_arguments_refuted, C64_template_refuted, C64_fraction_refuted, C64_scope_refuted — all closed under the global context.
* `TflProps.v`: C69_search_partial, C69_rooted, C69_list_partial, C69_stops_partial, C69_undefined, C69_fault_partial, C69_position, C69_verbatim_refuted, C69_unneeded_refuted, C69_empty_refuted, C69_options_refuted — all closed under the global context.
* `TfmProps.v`: C65_outputs_partial, C65_errors_partial, C65_unambiguous, C65_ends, C65_position_refuted, C65_missing_refuted, C65_left_refuted, C65_star_refuted, C65_zero_precision_refuted, C65_octal_refuted, C65_hex_refuted, C65_float_width_refuted, C65_float_zero_refuted, C65_overflow_refuted, C65_wide_refuted, C65_conversion_refuted, C65_array_refuted — all closed under the global context.
* `TokProps.v`: C10_token_found_iff, C10_first_occurrence — all closed under the global context.
* `TplProps.v`: C63_reads_partial, C63_unambiguous, C63_refuses_partial, C63_ends_refuted, C63_comment_refuted, C63_string_refuted, C63_with_variable_refuted, C63_quote_refuted, C63_function_refuted, C63_number_refuted, C63_fraction_refuted, C63_template_refuted, C63_block_refuted — all closed under the global context.
* `TunProps.v`: C58_order, C58_count, C58_idle, C58_eof_partial, C58_progress, C58_half_close_refuted, C58_flush_refuted — all closed under the global context.
* `UrlProps.v`: C08_split, C08_parts_unique, C08_rebuild, C08_history, C08_set_path, C08_set_query, C08_request_line, C08_first_qmark_refuted, C09_read, C09_params_unique, C09_set, C09_set_text, C09_order, C09_delete_others, C09_delete_partial, C09_delete_refuted — all closed under the global context.
* `WdProps.v`: C72_files_partial, C72_accepted_partial, C72_password_partial, C72_includedir_refuted, C72_absolute_refuted, C72_place_refuted, C72_freed_refuted, C72_nested_refuted, C72_jail_refuted, C72_options — all closed under the global context.
* `XpdProps.v`: C12_expand_partial, C12_missing_partial, C12_recent, C12_ends, C12_bounds_partial, C12_percent_refuted, C12_end_refuted, C12_group_refuted, C12_accessor_refuted, C16_safe, C16_no_injection, C16_decodes_partial, C16_target_partial, C16_high_bytes_refuted — all closed under the global context.
