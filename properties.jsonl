{"id": "C01", "title": "Content-Length values are read exactly or refused", "statement": "A Content-Length header value is accepted exactly when it is optional blanks, one or more decimal digits, optional blanks, and its numeric value fits the signed 64-bit length type; the length used by the proxy is then that numeric value. No accepted value is ever negative, truncated or wrapped.", "quantifier": "every header value (byte string of any length)", "why_tests_cant": "the value space is unbounded; overflow happens only on digit strings near 2^63 of any length and with leading zeros", "anchors": ["src/http.c:strtoclen", "src/http.c:get_content_length", "src/http.c:trimwsl"]}
{"id": "C02", "title": "Chunk-size lines are read exactly or refused", "statement": "A chunk-size line is accepted exactly when it is one or more hexadecimal digits, optional blanks, then end of line or a ';' extension, with the value fitting the signed 64-bit length type; the chunk length used is that value.", "quantifier": "every chunk-size line", "why_tests_cant": "unbounded strings; overflow boundary", "anchors": ["src/http.c:strtoclen", "src/http.c:get_content_length"]}
{"id": "C03", "title": "Line reader never lets control characters or over-long lines through", "statement": "Whenever the line reader delivers a line, the bytes consumed from the connection are that line followed by LF or CR LF (or the line ends at end of stream), the line contains no NUL, CR, LF or other control character except TAB, and it is shorter than the buffer. A line with a CR not followed by LF or with any other control character, and a line that does not fit, is refused, and in each refusal everything up to and including the next LF is consumed so that the reader stays aligned with line boundaries.", "quantifier": "every byte stream and every buffer size", "why_tests_cant": "the set of byte streams is infinite; alignment after a refusal depends on arbitrary trailing data", "anchors": ["src/http.c:get_line", "src/http.c:drain_eol"]}
{"id": "C04", "title": "Chunked body relay forwards exactly the body it framed", "statement": "When relaying a chunked body succeeds, the bytes written to the peer are the bytes consumed from the source with every line ending normalised to CR LF, they form a sequence of chunks each of exactly its announced size, a zero chunk and trailer lines, and the number of body bytes counted equals the sum of the chunk sizes. When forwarding is off nothing is written.", "quantifier": "every source byte stream, every way the transport splits reads, every size limit", "why_tests_cant": "chunk sequences are unbounded and read sizes are decided by the network", "anchors": ["src/http.c:copy_chunks", "src/http.c:copy_bin"]}
{"id": "C05", "title": "MaxRequest bounds chunked bodies", "statement": "With MaxRequest set to m > 0 a chunked request body of more than m bytes is never relayed in full: relaying stops with 413 before body bytes beyond m are forwarded.", "quantifier": "every chunk sequence and every limit m", "why_tests_cant": "needs accumulated sizes around 2^63, and arbitrarily many chunks", "anchors": ["src/http.c:copy_chunks"]}
{"id": "C06", "title": "Request framing is unambiguous", "statement": "A request that the proxy forwards has exactly one body framing: requests with both Transfer-Encoding and Content-Length, more than one Content-Length, a comma list in Content-Length, an unparsable Content-Length, a Transfer-Encoding that repeats chunked or in which chunked is not final, or an unknown coding alone are answered 400/501 and no byte is sent to a backend; the outcome does not depend on the order of unrelated headers.", "quantifier": "every list of header fields", "why_tests_cant": "header lists are unbounded and the decision is a fold over them", "anchors": ["src/http.c:do_http", "src/http.c:get_content_length", "src/http.c:cs_locate_token"]}
{"id": "C07", "title": "Request line grammar", "statement": "A request line is accepted exactly when it is a known method of an allowed group, one or more spaces, a non-empty target without spaces, one or more spaces, and HTTP/1.0 or HTTP/1.1; the method, target and version recorded are those substrings. Methods outside the configured group give 405.", "quantifier": "every line and every configured method group", "why_tests_cant": "unbounded strings", "anchors": ["src/http.c:parse_http_request", "src/http.c:find_method"]}
{"id": "C08", "title": "URL split and rebuild", "statement": "Splitting a request target into path and query and rebuilding it from path and query gives back the original target, except that an empty query loses its '?'; setting the path, query or URL through a rewrite changes that component only.", "quantifier": "every request target and every component value", "why_tests_cant": "unbounded strings with repeated separators", "anchors": ["src/http.c:http_request_split", "src/http.c:http_request_rebuild_url", "src/http.c:http_request_set_path", "src/http.c:http_request_set_query", "src/http.c:http_request_set_url"]}
{"id": "C09", "title": "Query parameter editing", "statement": "Setting query parameter p to v makes a later read of p return v, leaves every other parameter's value and the relative order of the others unchanged; deleting p makes a later read report it absent and changes no other parameter.", "quantifier": "every query string, every parameter name and value without the separators, every sequence of edits", "why_tests_cant": "arbitrary query strings and edit histories", "anchors": ["src/http.c:http_request_set_query_param", "src/http.c:http_request_get_query_param", "src/http.c:http_request_parse_query"]}
{"id": "C10", "title": "Comma-separated token search", "statement": "Searching a comma-separated header value for a token finds it exactly when one of the elements, after removing surrounding blanks, equals the token ignoring case.", "quantifier": "every header value and token", "why_tests_cant": "unbounded strings; false positives on sub-tokens", "anchors": ["src/http.c:cs_locate_token"]}
{"id": "C11", "title": "Header list editing modes", "statement": "Adding a header with mode replace leaves exactly one field of that name with the new value; with mode keep leaves existing fields unchanged; with mode append joins the value to the existing field with a comma for headers that may be combined; in every mode fields of other names keep their values and order.", "quantifier": "every header list, header and mode", "why_tests_cant": "unbounded lists and duplicates", "anchors": ["src/http.c:http_header_list_append", "src/http.c:http_header_list_filter"]}
{"id": "C12", "title": "String expansion", "statement": "Expanding a template replaces $N by the N-th submatch of the most recent match, $N(M) by that of the M-th most recent match, %N (old syntax) by that of the one before the most recent, a request accessor by the request's value, $$ and $% by a dollar and a percent sign, keeps all other bytes, refuses references that do not exist, and never reads outside the template or the captured groups.", "quantifier": "every template, every history of matches", "why_tests_cant": "templates are arbitrary strings and histories arbitrary sequences", "anchors": ["src/http.c:expand_string_to_buffer", "src/http.c:submatch_queue_get", "src/http.c:submatch_queue_push"]}
{"id": "C13", "title": "Boolean condition semantics", "statement": "A service condition holds exactly when the Boolean formula it denotes is true of the request: AND of all, OR of some, NOT, an empty group holds, evaluation stops at the first decisive operand, and an internal error in an evaluated operand is reported rather than treated as a match.", "quantifier": "every condition tree and every assignment of atomic results", "why_tests_cant": "trees of unbounded depth and width", "anchors": ["src/http.c:match_cond"]}
{"id": "C14", "title": "Rewrite rule selection", "statement": "For each rewrite rule exactly one branch is applied: the operations of the first alternative in the if/else chain whose condition holds, and none if no alternative holds; rules run in configuration order and each sees the request as left by the previous one.", "quantifier": "every rule list, chain length and condition outcome", "why_tests_cant": "unbounded chains, order dependence", "anchors": ["src/http.c:rewrite_apply", "src/http.c:rewrite_rule_check", "src/http.c:rewrite_op_apply"]}
{"id": "C15", "title": "Service selection order", "statement": "A request is handled by the first enabled service, listener services before global ones, each in configuration order, whose condition holds; disabled services are never chosen; if none match the client gets the not-found service error.", "quantifier": "every list of services and condition outcomes", "why_tests_cant": "unbounded service lists", "anchors": ["src/svc.c:get_service"]}
{"id": "C16", "title": "Redirect target cannot inject header lines", "statement": "The Location value and body of a redirect contain only bytes from a fixed safe set and percent escapes: no CR, LF, quote, angle bracket or control byte of the request can appear in the response header.", "quantifier": "every request URL and redirect template", "why_tests_cant": "unbounded attacker-controlled strings", "anchors": ["src/http.c:redirect_response"]}
{"id": "C17", "title": "Access list matching is prefix matching", "statement": "A client address matches an access list exactly when the list has an entry of the same address family whose first n bits equal those of the client address, n being the entry's mask length; the order of entries does not matter.", "quantifier": "every list, every IPv4/IPv6 address, every mask length 0..32 / 0..128", "why_tests_cant": "2^128 addresses and unbounded lists", "anchors": ["src/config.c:acl_match", "src/config.c:cidr_match", "src/config.c:masklen_to_netmask", "src/config.c:parse_cidr"]}
{"id": "C18", "title": "Random balancer is priority-proportional", "statement": "With the random algorithm each enabled live backend is chosen by exactly as many of the possible draw values as its priority, disabled or dead backends by none, and every draw in range selects a backend.", "quantifier": "every backend list and every draw", "why_tests_cant": "unbounded lists and draw space", "anchors": ["src/svc.c:rand_select", "src/svc.c:rand_pri_update", "src/svc.c:balancer_recompute_pri_unlocked"]}
{"id": "C19", "title": "Interleaved weighted round robin is exactly fair", "statement": "With the IWRR algorithm, over one full cycle of as many requests as the sum of the priorities of the enabled live backends, each of them is chosen exactly priority times, and no disabled or dead one is ever chosen.", "quantifier": "every backend list with at least one usable backend, every starting position", "why_tests_cant": "the cycle length depends on arbitrary priorities", "anchors": ["src/svc.c:iwrr_select", "src/svc.c:iwrr_pri_update"]}
{"id": "C20", "title": "Backend choice terminates and returns only usable backends", "statement": "Selecting a backend for a service terminates, returns a backend that is enabled and alive when one exists in the first non-exhausted balancer group, and returns none only when no backend of the service is usable; groups of lower weight are used before groups of higher weight.", "quantifier": "every set of balancer groups and backend states", "why_tests_cant": "state space of up/down/disabled combinations is unbounded", "anchors": ["src/svc.c:service_lb_select_backend", "src/svc.c:balancer_select_backend", "src/svc.c:iwrr_select", "src/svc.c:balancer_list_get"]}
{"id": "C21", "title": "Active counters agree with backend states", "statement": "After any sequence of disabling, enabling, killing, reviving, adding and removing backends, the number and the summed priority of active backends kept by each balancer equal those computed from the backends themselves.", "quantifier": "every operation history", "why_tests_cant": "arbitrary interleavings of control and health-check events", "anchors": ["src/svc.c:balancer_recompute_pri_unlocked", "src/svc.c:cb_backend_disable", "src/svc.c:touch_be", "src/svc.c:kill_be"]}
{"id": "C22", "title": "Session stickiness", "statement": "While a session is unexpired and its backend stays usable, every request carrying that session key goes to the same backend; each use extends its life by the TTL; a session is never returned after it expired and was collected, after it was deleted, or after its backend was killed.", "quantifier": "every history of session additions, lookups, deletions, backend kills and clock values", "why_tests_cant": "unbounded histories and clock values", "anchors": ["src/svc.c:service_session_add", "src/svc.c:service_session_find", "src/svc.c:service_session_promote", "src/svc.c:service_session_remove_by_key", "src/svc.c:service_session_remove_by_backend", "src/svc.c:expire_sessions"]}
{"id": "C23", "title": "Session expiry is complete and timely", "statement": "The session list stays ordered by expiry time and consistent with the lookup table, and as long as it is non-empty an expiry run is scheduled no later than the expiry of its oldest element; an expiry run removes exactly the sessions whose time has passed.", "quantifier": "every history with a non-decreasing clock", "why_tests_cant": "unbounded histories", "anchors": ["src/svc.c:expire_sessions", "src/svc.c:service_session_add", "src/svc.c:service_session_promote"]}
{"id": "C24", "title": "Periodic jobs run in time order", "statement": "Scheduled jobs are run in order of their due times, jobs with equal due times in order of scheduling; no job runs before a job with an earlier due time that was scheduled before it ran; a cancelled job is removed and its finaliser called exactly once; other jobs are unaffected.", "quantifier": "every sequence of scheduling, cancelling and timer ticks", "why_tests_cant": "unbounded histories, ties", "anchors": ["src/svc.c:job_arm_unlocked", "src/svc.c:job_enqueue_unlocked", "src/svc.c:job_cancel", "src/svc.c:job_remove", "src/svc.c:thr_timer"]}
{"id": "C25", "title": "String matchers", "statement": "The exact, prefix, suffix and contain matchers report a match exactly when the subject equals, starts with, ends with or contains the pattern (ignoring case when asked).", "quantifier": "every pattern and subject", "why_tests_cant": "unbounded strings; search-skip tables misbehave only on particular repetition patterns", "anchors": ["src/genpat.c:exact_exec", "src/genpat.c:prefix_exec", "src/genpat.c:suffix_exec", "src/genpat.c:strstr_compile", "src/genpat.c:strstr_exec"]}
{"id": "C26", "title": "Password file semantics", "statement": "Basic authentication succeeds exactly when the decoded user name equals that of an entry of the password file and the password verifies against the first such entry under the scheme the entry's prefix selects; comments and malformed lines grant nothing.", "quantifier": "every password file and every credential pair", "why_tests_cant": "unbounded files and credentials", "anchors": ["src/bauth.c:basic_auth", "src/bauth.c:auth_match", "src/bauth.c:pass_file_fill", "src/http.c:http_request_get_basic_auth"]}
{"id": "C27", "title": "Forwarded-for address selection", "statement": "The client address taken from a forwarded header is the right-most address that is not in the trusted list; if every address is trusted, or an address to the right of the first untrusted one is malformed, the peer address is used.", "quantifier": "every header value and trusted list", "why_tests_cant": "unbounded attacker-controlled strings", "anchors": ["src/log.c:scan_forwarded_header", "src/log.c:acl_match_ip"]}
{"id": "C28", "title": "Worker pool accounting", "statement": "Requests are handed to workers in arrival order, each exactly once; the number of workers stays between the configured minimum and maximum and the number of busy workers never exceeds the number of workers.", "quantifier": "every interleaving of arrivals, worker starts, finishes and idle timeouts", "why_tests_cant": "schedules are unbounded", "anchors": ["src/pound.c:pound_http_enqueue", "src/pound.c:pound_http_dequeue", "src/pound.c:active_threads_decr"]}
{"id": "C29", "title": "Dispatch serves exactly the ready listeners", "statement": "Each pass over the listeners accepts a connection on exactly those enabled listeners whose descriptor is ready.", "quantifier": "every list of listeners, every disabled pattern, every readiness vector", "why_tests_cant": "combinatorial in the number of listeners", "anchors": ["src/pound.c:thr_dispatch"]}
{"id": "C30", "title": "Control API object addressing", "statement": "In a control request each path component selects at most one object: a decimal index selects by position, anything else by name, '-' selects the global scope; an index or name that does not exist gives an error and changes nothing.", "quantifier": "every request path and every object population", "why_tests_cant": "unbounded strings and populations", "anchors": ["src/svc.c:ctl_getident", "src/svc.c:ctl_listener", "src/svc.c:ctl_service", "src/svc.c:ctl_backend", "src/svc.c:disable_handler"]}
{"id": "C31", "title": "Control API routing", "statement": "A control request is dispatched to the handler whose method and URI prefix match, the longest prefix winning; a known URI with an unsupported method gives a method error and an unknown URI gives not found.", "quantifier": "every method and path", "why_tests_cant": "unbounded strings, overlapping prefixes", "anchors": ["src/svc.c:find_endpoint", "src/svc.c:control_response_basic"]}
{"id": "C32", "title": "JSON object is a finite map", "statement": "Setting a key in a JSON object makes a later lookup return the last value set for it; other keys are unaffected; keys are kept sorted and unique; iteration order is key order.", "quantifier": "every sequence of set and lookup operations", "why_tests_cant": "unbounded histories; binary search over linked list", "anchors": ["src/json.c:json_object_lookup_or_install", "src/json.c:json_object_set", "src/json.c:json_object_get"]}
{"id": "C33", "title": "JSON output is well formed and reads back", "statement": "Formatting a value built by the control interface gives text that the JSON reader parses back to the same value.", "quantifier": "every value tree", "why_tests_cant": "unbounded trees and strings", "anchors": ["src/json.c:json_value_format", "src/json.c:json_format_string", "src/json.c:json_parse_string"]}
{"id": "C34", "title": "Backends are released exactly when unreferenced", "statement": "A backend object is destroyed only after it was removed from its balancer and every request and job that holds a reference has dropped it, and it is destroyed exactly once.", "quantifier": "every interleaving of request start, request end, removal and job completion", "why_tests_cant": "schedules are unbounded", "anchors": ["src/dynbe.c:backend_ref", "src/dynbe.c:backend_unref", "src/dynbe.c:thr_backend_remover", "src/http.c:select_backend"]}
{"id": "C35", "title": "Dynamic backend update", "statement": "After an address update the set of backends generated for a dynamic backend is exactly the set of addresses in the answer: addresses already present keep their backend object, new ones are added once, missing ones are scheduled for removal.", "quantifier": "every previous set and every answer", "why_tests_cant": "sets of arbitrary size, duplicates in the answer", "anchors": ["src/dynbe.c:backend_matrix_addr_update", "src/dynbe.c:backend_sweep"]}
{"id": "C36", "title": "Response relay to the client", "statement": "For every exchange the client receives exactly one final response status line and its body is delimited as the backend delimited it; interim 100 responses are passed or dropped without losing the final response.", "quantifier": "every sequence of backend responses", "why_tests_cant": "sequences of interim responses of any length", "anchors": ["src/http.c:backend_response"]}
{"id": "C37", "title": "Location rewriting touches only own addresses", "statement": "A Location header of a backend response is rewritten only if it points to the address of the backend itself (or, in the other mode, of the listener); otherwise it is passed unchanged.", "quantifier": "every Location value and address resolution", "why_tests_cant": "unbounded strings", "anchors": ["src/svc.c:need_rewrite", "src/svc.c:is_backend_address", "src/svc.c:is_listener_address"]}
{"id": "C38", "title": "Intrusive lists behave as sequences", "statement": "The singly and doubly linked list operations used for services, sessions, jobs and work items implement append, remove, insert and traversal of sequences: no element is lost, duplicated or left dangling.", "quantifier": "every heap and every sequence of operations", "why_tests_cant": "unbounded heaps and histories", "anchors": ["src/list.h:SLIST_INSERT_TAIL", "src/list.h:SLIST_REMOVE_HEAD", "src/list.h:DLIST_INSERT_TAIL", "src/list.h:DLIST_REMOVE", "src/list.h:DLIST_INSERT_BEFORE"]}
{"id": "C39", "title": "String buffers grow without losing data or overflowing", "statement": "Appending to a string buffer keeps earlier contents and appends exactly the given bytes, for any sequence of appends; allocation sizes never wrap: the requested size is always at least what is needed or an error is reported.", "quantifier": "every sequence of appends, every size up to the machine limit", "why_tests_cant": "wrap-around only near 2^64; unbounded sequences", "anchors": ["src/mem.c:mem2nrealloc", "src/mem.c:stringbuf_expand", "src/mem.c:stringbuf_add"]}
{"id": "C40", "title": "Session key extraction", "statement": "The session key taken from a cookie, URL parameter, header or basic-auth user is the value of the first matching item, cut to the fixed key size; a different name that merely contains or extends the configured one never matches.", "quantifier": "every header list and name", "why_tests_cant": "unbounded strings", "anchors": ["src/svc.c:find_key_by_header", "src/svc.c:key_cookie", "src/svc.c:find_backend_by_key"]}
{"id": "C41", "title": "Configuration lexer", "statement": "The configuration lexer splits any input into tokens such that comments and blanks are dropped, a quoted string denotes its characters with backslash escapes resolved, and putting tokens back and re-reading returns the same tokens.", "quantifier": "every configuration text", "why_tests_cant": "unbounded text", "anchors": ["src/cfgparser.c:input_gettkn", "src/cfgparser.c:input_putback"]}
{"id": "C42", "title": "Access log format compilation", "statement": "Compiling a log format and printing it reproduces literal text exactly and replaces each directive by its value, for every format string accepted.", "quantifier": "every format string", "why_tests_cant": "unbounded strings", "anchors": ["src/log.c:http_log_format_compile", "src/log.c:http_log"]}
{"id": "C43", "title": "Supervisor restart policy", "statement": "The supervisor restarts the worker process whenever it exits abnormally and stops exactly on a normal termination request.", "quantifier": "every history of child exits and signals", "why_tests_cant": "unbounded histories", "anchors": ["src/pound.c:supervisor"]}
{"id": "C44", "title": "Balancer groups are unique and ordered", "statement": "Looking up or creating balancer groups by weight keeps the list strictly ordered by weight with one group per weight, and never changes the content of other groups.", "quantifier": "every sequence of lookups", "why_tests_cant": "unbounded histories", "anchors": ["src/svc.c:balancer_list_get"]}
{"id": "C45", "title": "Host matching", "statement": "A Host condition of kind exact, prefix, suffix or contain written literally matches exactly the Host header values that equal, start with, end with or contain the literal text.", "quantifier": "every literal and host value", "why_tests_cant": "unbounded strings; regex metacharacters", "anchors": ["src/config.c:host_prefix_regex", "src/config.c:stringbuf_escape_regex", "src/config.c:parse_cond_matcher_0"]}
{"id": "C46", "title": "Timeout and number configuration values", "statement": "A numeric configuration value is accepted exactly when its text is a number in the documented range and the stored value equals it.", "quantifier": "every token text", "why_tests_cant": "unbounded digit strings, wrap at word size", "anchors": ["src/cfgparser.c:cfg_assign_unsigned", "src/cfgparser.c:cfg_assign_int", "src/cfgparser.c:cfg_assign_int_range", "src/cfgparser.h:cfg_assign_timeout", "src/config.c:assign_CONTENT_LENGTH"]}
{"id": "C47", "title": "Connection reuse", "statement": "A client connection is reused for another request only if the request was HTTP/1.1 or asked for keep-alive semantics, the response was completely delimited, and neither side asked to close.", "quantifier": "every sequence of requests on a connection", "why_tests_cant": "unbounded sequences", "anchors": ["src/http.c:do_http"]}
{"id": "C48", "title": "Hash tables are finite maps", "statement": "Insert, lookup and delete in the hash tables used for sessions and backends behave as a finite map keyed by the key contents.", "quantifier": "every operation history", "why_tests_cant": "unbounded histories and collisions", "anchors": ["src/ht.h"]}
{"id": "C49", "title": "Header field grammar and reading a message head", "statement": "A header line is accepted as a field exactly when it is a non-empty token, a colon and a value; name and value are recovered exactly (value stripped of leading blanks). Reading a message head succeeds exactly on a first line followed by such lines and an empty line; the header list contains every accepted line in order, with repeated list-valued fields joined by commas, and nothing else.", "quantifier": "every byte sequence received as a message head", "why_tests_cant": "unbounded heads, all combinations of repeated fields", "anchors": ["src/http.c:qualify_header", "src/http.c:http_request_read", "src/http.c:compose_header_finish", "src/http.c:combinable_header_add"]}
{"id": "C50", "title": "Files served for ACME challenges", "statement": "A request for /.well-known/acme-challenge/NAME on a listener with an ACME directive is answered with the contents of the file NAME of the configured directory, whole and with the right length, or with 404 if there is none; nothing outside the directory can be obtained that way, and exactly one response is sent.", "quantifier": "every file system tree, every URL, every directory, both protocol versions, every set of request rules", "why_tests_cant": "the names come from the client and the file system is arbitrary; a test tries a few names", "anchors": ["src/http.c:acme_response", "src/config.c:parse_acme", "src/http.c:expand_url"]}
{"id": "C51", "title": "Replies made by the server itself", "statement": "Error pages, redirects, Error backends, the control interface and the metrics answer with exactly one message whose status code is the one configured, whose Content-Length is the length of the body sent, and whose body is the configured page or the default one; a reply to HEAD has no body.", "quantifier": "every status code, page text, response rule result, protocol version", "why_tests_cant": "all texts and lengths", "anchors": ["src/http.c:bio_http_reply", "src/http.c:bio_err_reply", "src/http.c:error_response", "src/http.c:http_status_to_pound", "src/metrics.c:send_reply", "src/svc.c:send_json_reply"]}
{"id": "C52", "title": "Dynamic backends follow the name server", "statement": "The backends generated from a host name are those of the addresses the name server last gave for it, of every address family configured; the name is looked up again when the answer expires (or after the configured time) and there is always exactly one lookup scheduled while the backend is enabled, none while it is disabled. A temporary failure leaves the generated backends in place and the lookup is repeated after the retry interval; CNAME chains up to the configured length are followed; SRV records are used by priority, heavier ones first.", "quantifier": "every behaviour of the name server over time, every history of answers, failures, disabling and enabling", "why_tests_cant": "needs a name server that fails in every combination, over unbounded time", "anchors": ["src/resolver.c:dns_addr_lookup", "src/resolver.c:dns_generic_lookup", "src/resolver.c:dns_query", "src/resolver.c:dns_srv_lookup", "src/dynbe.c:backend_matrix_addr_update", "src/dynbe.c:backend_matrix_srv_update", "src/dynbe.c:backend_matrix_disable"]}
{"id": "C53", "title": "A request finds a backend that takes it", "statement": "When the backend chosen for a request refuses the connection, it is declared dead, its sessions end, and the request is offered to the next choice of the session or balancer, and so on; each backend is tried once at most. The client gets 503 only if every usable backend has refused. A session of the client leads to the backend that took the request; backends that were not tried, and their other sessions, are untouched.", "quantifier": "every history of the service, every combination of backends that refuse, connect or fail, every session, interference by other threads", "why_tests_cant": "needs backends failing in every combination, in every state of the balancer and of the sessions", "anchors": ["src/http.c:select_backend", "src/http.c:do_http", "src/svc.c:get_backend", "src/svc.c:kill_be", "src/svc.c:session_add_handler"]}
{"id": "C54", "title": "What the backend receives", "statement": "The backend receives the client's request line, the client's header fields (but for Expect: 100-continue) in their order with exactly the documented edits, and then the body: the client's address is appended to X-Forwarded-For, X-Forwarded-Proto and -Port, the X-SSL fields about cipher and certificate and (with ServerName) Host replace what the client sent, the host of Destination becomes the backend. Fields of other names are untouched, no text from the client or a certificate can add a line, and the head that is sent delimits the body as the proxy did. A backend can rely on these fields: it gets no value for them that the proxy did not set.", "quantifier": "every request, every listener and backend configuration of these options, every address, cipher and certificate", "why_tests_cant": "Depends on how the fields of arbitrary requests interact with every combination of the options and of certificate contents; smuggling and spoofing are about inputs nobody thought of.", "anchors": ["src/http.c:send_to_backend", "src/http.c:add_forwarded_headers", "src/http.c:add_ssl_headers", "src/http.c:set_header_from_bio", "src/http.c:http_header_list_append", "src/http.c:http_request_send"]}
{"id": "C55", "title": "Request statistics", "statement": "The number of requests, average time and standard deviation that the control interface and the metrics report of a backend are those of the requests the backend has handled: the number is exact, the average is the mean of their times and the deviation the square root of their variance, up to rounding; computing them always ends.", "quantifier": "every history of requests with any times", "why_tests_cant": "a running average over arbitrarily many requests; an error may accumulate, and the iteration for the root may not end for some value", "anchors": ["src/http.c:backend_update_stats", "src/svc.c:nsqrt", "src/svc.c:backend_stats_serialize", "src/pound.h:timespec_sub"]}
{"id": "C56", "title": "Listings of the control interface", "statement": "A listing shows the listeners, services and backends in the order of the numbers by which they are addressed in requests to the control interface, all of them, each with its name, whether it is enabled and alive, and its parameters; the sessions of a service are shown with their key and the number of their backend, a generated backend with the number of the one it was generated from.", "quantifier": "every configuration and state", "why_tests_cant": "all numbers of balancers, backends and sessions", "anchors": ["src/svc.c:pound_serialize", "src/svc.c:listener_serialize", "src/svc.c:service_serialize", "src/svc.c:backends_serialize", "src/svc.c:backend_serialize", "src/svc.c:session_backend_index", "src/svc.c:find_backend_index"]}
{"id": "C57", "title": "Reading a configuration", "statement": "A configuration file is accepted exactly if it is a sequence of statements known where they stand, each with its arguments and alone on its line, blocks reaching to their End; the statements take effect in the order of the text, and Include stands for the text of the file. Anything else is refused, in particular files that include one another. Reading always ends. A NOT negates the one condition that follows, and rules for responses take conditions and actions for responses only.", "quantifier": "every configuration text, every set of files including one another, every table of keywords", "why_tests_cant": "unbounded nesting of blocks and files; all orders of statements", "anchors": ["src/cfgparser.c:cfgparser", "src/cfgparser.c:parser_find", "src/cfgparser.c:gettkn", "src/cfgparser.c:push_input", "src/cfgparser.c:cfg_parse_include", "src/config.c:parser_loop", "src/config.c:parse_not_cond", "src/config.c:parse_end_else", "src/config.c:parse_response_else"]}
{"id": "C58", "title": "Websocket tunnel", "statement": "Once a connection has been switched to the websocket protocol, the bytes the client sends reach the backend and the bytes the backend sends reach the client, unchanged, in order, none twice and none invented; the number logged is the number of bytes relayed to the client. The tunnel ends when one side closes, an operation fails or nothing arrives for the configured time, never while data keep arriving; everything a side sent before it closed is delivered.", "quantifier": "every interleaving of arrivals on both connections, every division of the data, every point at which a connection closes, fails or falls silent", "why_tests_cant": "the two directions interleave without bound and closing may happen at any point", "anchors": ["src/http.c:backend_response"]}
{"id": "C59", "title": "The metrics show the state, and can be read back", "statement": "A request for the metrics is answered with a text in the OpenMetrics format from which exactly these samples can be read, in one way only: the numbers of workers; for every listener, service and backend whether it is enabled or alive, its name and address, the numbers of its backends in each state, and the statistics of its requests, each with labels that tell which listener, service and backend it is about. No two samples of a family have the same labels. Requests for the metrics that are served at the same time do not influence each other.", "quantifier": "every number of listeners, services and backends, every state and statistics of them, every name, and every interleaving of threads that compute the metrics", "why_tests_cant": "The samples are collected in order of the objects and shown in order of the families, for any shape of the configuration; which names break the text and which interleavings mix up two texts cannot be found by trying a few.", "anchors": ["src/metrics.c: metrics_response, exposition_fill, exposition_iterate, exposition_apply_family, exposition_metric_find, exposition_format, gen_listener_enabled, gen_listener_info, gen_service_info, gen_service_enabled, gen_backends_count, gen_backend_state, gen_backend_requests, gen_workers, metric_labels_add, metric_labels_copy, metric_labels_pop", "src/pound.c: workers_serialize", "src/svc.c: pound_serialize"]}
{"id": "C60", "title": "The certificate a client gets", "statement": "An HTTPS listener is accepted exactly if it has at least one certificate, all its certificates can be used and the directives about them come after the first. A client that names the server it wants gets the first certificate, in the order of the configuration, that is for this name, where a wildcard stands for one label and case does not matter, and the default (first) certificate if there is none; so does a client that names no server. The directives about certificates apply to all of the listener.", "quantifier": "every list of certificates with whatever names, patterns among them, every configuration of a listener, every name a client may ask for", "why_tests_cant": "Patterns and names are unbounded and the answer depends on the order of all the certificates.", "anchors": ["src/config.c: load_cert, get_subjectaltnames, https_parse_cert, SNI_server_name, parse_listen_https, https_parse_client_cert, https_parse_ciphers, https_parse_calist, https_parse_verifylist, https_parse_crlist"]}
{"id": "C61", "title": "The backends of a configuration", "statement": "A configuration is accepted exactly if every backend has an address that can be used (numeric, a name, or the path of a socket, which takes no port), every reference names a global backend, and no balancer combines several backends other than servers and redirects; otherwise it is refused with a message. The services of an accepted configuration have the backends that their statements stand for, in order, with every parameter as the last directive for it says and with the documented defaults; a reference to a global backend (UseBackend, or Backend with a name) has the effect of its definition in that place, Priority and Disabled given there taking precedence, wherever the definition stands. Numeric addresses are never looked up in DNS.", "quantifier": "every sequence of statements and sections, every order of definitions and references, every answer of the resolver, every address text", "why_tests_cant": "Sections, services and references combine without bound; whether a reference is the same as a definition in place is a statement about all pairs of configurations.", "anchors": ["src/config.c: parse_backend_internal, parse_backend, parse_use_backend, parse_emergency, parse_named_backend, named_backend_insert, named_backend_retrieve, backend_finalize, backend_resolve, backend_matrix_to_regular, cb_be_setup, service_finalize, str_is_ip, str_is_ipv4, str_is_ipv6, assign_port_generic"]}
{"id": "C62", "title": "What the text of a service says", "statement": "The services of a configuration are those written in it: each has the conditions of its text, and accepts a request exactly if the formula written with Match, AND, OR, NOT and HeadDeny is true of it; a comparison compares in the way the last option about it says, else in the documented default way, and with -file succeeds if some line of the file does. The modifications are performed in the order of the text, those of a Rewrite section if its conditions hold and those after its Else otherwise, those for responses separately. IgnoreCase in a service concerns that service only. Layout, case of keywords and nesting do not matter. No two services have the same name, and no accepted text yields a negation of nothing.", "quantifier": "every text of services with any nesting of groups, negations and rewrite sections, every combination of options, every pattern file, every set of included files", "why_tests_cant": "Nesting and the combination of options are unbounded; that the structure built is the one written must hold for all of them.", "anchors": ["src/config.c: parse_match_mode, host_prefix_regex, parse_cond_matcher_0, parse_cond_matcher, parse_cond_url_matcher, parse_cond_path_matcher, parse_cond_query_matcher, parse_cond_query_param_matcher, parse_cond_string_matcher, parse_cond_hdr_matcher, parse_cond_head_deny_matcher, parse_cond_host, parse_cond_basic_auth, parse_cond_client_cert, parse_cond_acl, parse_match, parse_cond, parse_not_cond, parse_rewrite_op, parse_delete_header, parse_set_query_param, parse_else, parse_sub_rewrite, parse_rewrite, rewrite_rule_last_uncond, service_cond_append, assign_dfl_ignore_case, parse_service, find_service_ident"]}
{"id": "C63", "title": "Reading an output template", "statement": "A template file written as the manual describes (text; actions, with or without trimming of the text around; comments; pipelines nested to any depth; if, else if, with, range, break, continue, define, template, block) is read, and what is read is the tree of actions the text stands for together with the templates defined in it; no text can be read in two ways. Any other text is refused with a message, and reading always ends.", "quantifier": "every text of a template, however long and however deeply nested, and every set of templates defined before", "why_tests_cant": "Nesting is unbounded, and how white space, comments, attributes and delimiters meet has too many combinations for examples.", "anchors": ["src/tmpl.c: template_parse, scan_action, tmpl_gettext, tmpl_gettok, scan_pipeline, scan_arg, if_action_parser, elseif_action_parser, endif_action_parser, with_action_parser, elsewith_action_parser, range_action_parser, break_action_parser, continue_action_parser, define_action_parser, template_action_parser, block_action_parser, template_lookup", "doc/poundctl.tmpl.5"]}
{"id": "C64", "title": "Running an output template", "statement": "What poundctl outputs for a template and the answer of the daemon is what the manual says the actions do: texts, values of pipelines, if and with by whether a value is empty, range over each element in order with dot or the named variables set, break and continue, templates with their argument as dot; the functions have the values the manual gives. A function with a missing, surplus or unsuitable argument ends the program with a message that says so, after what comes before was output. Running a template always ends, and never depends on anything else.", "quantifier": "every tree of actions, every set of defined templates, every JSON value, nested to any depth, and any arithmetic of doubles and printf function", "why_tests_cant": "Trees, values and iterations are unbounded; an example fixes one template and one answer, and the environment that is shared between iterations shows only in combinations.", "anchors": ["src/tmpl.c: template_run, tmpl_action_eval, tmpl_pipeline_eval, tmpl_env_print_json, tmpl_env_new, is_empty, func_and, func_or, func_index, func_len, func_not, func_eq, func_lt, func_even, func_typeof, func_exists, func_add, func_div", "doc/poundctl.tmpl.5"]}
{"id": "C65", "title": "printf in output templates", "statement": "The function printf of output templates outputs what printf(3) says for the conversions s, d, i, u, x, X, o, e, E, f, F, g and G, with flags, width and precision, numbers or taken from arguments, and JSON for v: each conversion takes the next argument, all other characters are output as they are. A missing argument or one that is not a number ends the program with a message that says so. It always ends, and writes no memory but its own.", "quantifier": "every format of any length, all lists of arguments, every width and precision, any number and any string, whatever the C library makes of doubles", "why_tests_cant": "Formats are unbounded, and flags, widths, precisions, conversions and the sizes of values meet in too many combinations; buffers overflow only for some of them.", "anchors": ["src/tmpl.c: func_printf, get_num, tmpl_va_arg_n, json_cast_to_string, json_cast_to_integer, sb_write_string, stringbuf_print_json", "doc/poundctl.tmpl.5"]}
{"id": "C66", "title": "Which daemon poundctl talks to, and as whom", "statement": "poundctl connects to the server at top level of .poundctl, or to the section named by option -S; of each setting the last one said counts and options count more than the file; a section declared twice or an unknown name is refused. Without a URL the control socket is found in the configuration file of pound: the text of the first Control directive, or of the first Socket in a Control section. A URL is taken apart into scheme, user, password, host, port and path as documented, with the default port of the scheme; a name without a scheme is a socket file if it fits one; other schemes are refused.", "quantifier": "every .poundctl (list of statements), every list of options, every text of the configuration file of pound, every URL", "why_tests_cant": "settings interact (order of options, sections, defaults), texts and URLs are unbounded; tests check single commands", "anchors": ["src/poundctl.c: parse_server, find_keyword, get_socket_name, url_parse_host, url_parse_creds, url_parse_scheme, url_parse, main, default_server_defn"]}
{"id": "C67", "title": "What poundctl asks for", "statement": "Each command of poundctl sends one request that pound reads whole: list asks for the listing of the object named, disable and off disable it, enable and on enable it, delete removes the session with the given key in the service named, add adds one for the backend named; nothing else is changed, listing changes nothing. The request carries the host and exactly the user and password of the URL.", "quantifier": "every command line, every URL, every configuration of the daemon", "why_tests_cant": "object paths, keys, names and credentials are unbounded texts that are pasted into a request and split again by the daemon; tests try a few", "anchors": ["src/poundctl.c: oi_getn, check_uri, send_request, command_list, command_disable, command_enable, command_delete_session, command_add_session, find_command", "doc/poundctl.8"]}
{"id": "C68", "title": "What poundctl makes of the answer", "statement": "From an answer of the daemon poundctl takes the value the daemon wrote: it is shown as JSON, or by the template; an error the daemon reports is reported with its phrase, and the exit status is 1. The exit status of disable, off, enable and on is 0 if and only if the object was switched. No answer, complete or not, is mistaken for another, makes poundctl use memory that was not set, or keeps it from ending.", "quantifier": "every sequence of bytes received, every JSON value and indentation, every error page, every configuration of the daemon and every object named", "why_tests_cant": "answers are unbounded texts of any origin, cut anywhere; tests see a few answers of a working daemon", "anchors": ["src/poundctl.c: xgets, read_response_line, read_response, print_json, command_disable, command_enable, command_list", "src/http.c: bio_err_reply, http_err_reply, http_status_to_pound"]}
{"id": "C69", "title": "Which template poundctl uses, and what its commands show in the end", "statement": "The template file is the first one given by the elements of the search path, from left to right: an element that is a regular file, or a directory in which a file of that name can be opened, with a tilde for the home directory; a file requested explicitly is used verbatim. What list, delete and add show is the output of the requested template of that file for the value the daemon sent, with exit status 0; if the template ends with an error, the exit status is 1 after what comes before it was output. A template that is not defined, or a fault in the file, is reported, the latter with the line and column of a character of the file. Commands that do not use a template do not depend on it.", "quantifier": "every file system, search path, name, home directory and text of the template file, every value sent", "why_tests_cant": "search paths, files and templates are unbounded, and what is shown in the end results from five readers in a row; tests use one file in one place", "anchors": ["src/poundctl.c: find_template_file, line_start, line_no, read_template, main, command_list", "src/tmpl.c: template_parse, template_lookup, template_run", "doc/poundctl.8"]}
{"id": "C70", "title": "Redirects, error pages and sessions of a configuration", "statement": "Redirect takes one of the codes 301, 302, 303, 307, 308 (302 if none is given) and a URL of HTTP; the client is sent to that URL, expanded, with the URL of the request appended exactly if it has no path and no substitutions; a URL with a path, even a mere slash, is used as it is. Error and ErrorFile take one of the supported codes and a regular file that is not empty, whose content becomes the page for that code and no other. A Session section is accepted exactly if it gives a kind, a time to live and, for cookies, URLs and header lines, an identifier; the last statement of each kind counts. Anything else is refused.", "quantifier": "every number, every text of a URL, every file, every list of statements of a section, every request", "why_tests_cant": "URLs, numbers and sections are unbounded texts and interact with every request; tests use a handful of well-formed directives", "anchors": ["src/config.c: parse_redirect_backend, parse_error_backend, parse_errorfile, session_type_parser, parse_session", "src/http.c: redirect_response, http_status_to_pound", "src/cfgparser.c: cfg_assign_string_from_file, kw_to_tok", "doc/pound.texi"]}
{"id": "C71", "title": "Options that suppress log messages, header lines and versions of TLS", "statement": "LogSuppress leaves out of the log exactly the requests whose status is of one of the classes named, and accepts the words of the manual only. HeaderOption turns each of the two groups of header lines on or off as its words say, the later ones overriding the earlier, and accepts the words of the manual only. Disable refuses the named version of the protocol and all older ones, and no other, in listeners and in backends.", "quantifier": "every list of words and every status, every list of directives", "why_tests_cant": "the effects of lists of words of any length on every status and version; tests use one word", "anchors": ["src/config.c: parse_log_suppress, parse_header_options, set_proto_opt, disable_proto, https_parse_disable", "src/log.c: http_log", "src/pound.h: STATUS_MASK", "doc/pound.texi"]}
{"id": "C72", "title": "Where the files named in a configuration are looked for", "statement": "A relative name is looked for in the directory set by the last IncludeDir statement before it; before the first one, in the directory of -W include-dir or the one pound was started in. Names that begin with a slash do not depend on any directory. A password file is the same file each time it is read, whether pound runs as a daemon or in a root jail or not. If all the files are there the configuration is accepted. The arguments of -W are those of the manual, and the last one counts.", "quantifier": "every list of statements and names, every nesting of conditions and rules with password files, every file system, every combination of RootJail, Daemon and -W options", "why_tests_cant": "reference counts and directories are shared by any number of statements, and are used again at every request in a process whose root and working directory have changed; tests use one file in one directory", "anchors": ["src/cfgparser.c: cfg_parse_includedir, workdir_get, workdir_free, get_include_wd, fopen_include, fopen_wd, filename_resolve, cfgparser_finish", "src/config.c: cond_pass_file_fixup, rule_pass_file_fixup, service_pass_file_fixup, parse_config_file, set_include_dir, feature_set", "src/bauth.c", "doc/pound.8"]}
{"id": "C73", "title": "Client certificates", "statement": "A listener asks for client certificates as the mode of its ClientCert directive says: never; asked, and refused if the one shown is not verified; refused also if none is shown; asked without verification. Certificates are verified with the lists given by VerifyList and CRLlist. The conditional ClientCert is true exactly if the client presents that certificate; it makes the listener ask for certificates, and is refused in HTTP listeners, in services outside listeners and together with the ClientCert directive.", "quantifier": "every list of directives of a listener, every nesting of conditions, every certificate shown or none, every outcome of OpenSSL's verification, every certificate the client is served with", "why_tests_cant": "the outcome depends on the order of all directives, on all services and on the name the client asks for; tests use one certificate", "anchors": ["src/config.c: foreach_client_cert, forbid_ssl_usage, https_parse_client_cert, https_parse_verifylist, https_parse_crlist, client_cert_cb, flush_service_client_cert, parse_listen_https, parse_listen_http, verify_OK", "src/http.c: match_cond, do_http", "doc/pound.texi: ClientCert"]}
{"id": "C74", "title": "TLS options of a listener, and clients that renegotiate", "statement": "With SSLAllowClientRenegotiation 0, a client that begins another handshake after the first one is refused everything from then on, and other clients never notice; with 1 and 2 nothing is refused for it, and the insecure kind is possible with 2 only. SSLHonorCipherOrder does what it says. Of several such directives the last one counts, and no option of the TLS library that is not named by a directive is changed, apart from the fixed choice of pound.", "quantifier": "every list of directives, every set of options a new context has, every history of calls by OpenSSL, of reads, writes and connections to backends", "why_tests_cant": "the defence is a state machine driven by the TLS library in the midst of any traffic; tests renegotiate once with one release of the library", "anchors": ["src/config.c: https_parse_honor_cipher_order, https_parse_allow_client_renegotiation, parse_listen_https", "src/svc.c: SSLINFO_callback", "src/http.c: bio_callback, set_callback, do_http", "src/pound.h: RENEG_STATE", "doc/pound.8: SSLAllowClientRenegotiation"]}
{"id": "C75", "title": "Waits for clients and backends are bounded", "statement": "A read from or a write to a client waits no longer than the time of the directive Client, and one that concerns a backend no longer than its TimeOut; 0 means no limit. Whoever was too slow once is not waited for again on that connection. A peer that is ready in time is served, and a longer time never gives it less.", "quantifier": "every time the configuration can have, every history of operations, every sequence of results of poll, signals included", "why_tests_cant": "the number and order of operations, the results of poll and signals are unbounded; tests wait for one timeout", "anchors": ["src/http.c: bio_callback, set_callback, is_readable, do_http", "src/cfgparser.h: cfg_assign_timeout"]}
{"id": "C76", "title": "Sockets and files of a pound that starts and ends", "statement": "The control socket is made where the configuration says, with its mode and, with ChangeOwner, its owner; the PID file holds the number of the process that is left running. When a signal ends pound both are removed, wherever they are and whatever RootJail, Daemon and User say, and no other file is touched. A start that fails does no harm to a pound that runs.", "quantifier": "every list of statements of a configuration, in any order, every name of a socket or PID file, every file system, every combination of RootJail, Daemon, User, -p and -F", "why_tests_cant": "what a name means depends on the working and root directories at the moment, and these change between the reading of the configuration and the end; tests run one configuration in one directory", "anchors": ["src/pound.c: unlink_at_exit, pidfile_create, cleanup, listener_init, detach, main, server", "src/config.c: parse_control_socket, parse_control_listener, config_parse", "doc/pound.8: Control socket"]}
{"id": "C77", "title": "The identity pound runs with", "statement": "A pound started by root runs as the User and with the Group of its configuration, with no other rights, and cannot get the old ones back; with RootJail it sees only the files inside that directory. An unknown user or group ends it before it has done anything.", "quantifier": "every list of statements, every set of identities and groups of the process that starts, every file system", "why_tests_cant": "the rights left to a process are the absence of successful calls for ever after; tests look at one process listing", "anchors": ["src/pound.c: main, detach", "src/config.c: config_parse"]}
{"id": "C78", "title": "Addresses and names of listeners", "statement": "A listener listens on the address and port its section says last, or on the default port, or takes its socket from SocketFrom; a section that says both is refused. Names of listeners are unique.", "quantifier": "every list of statements of any number of listeners, every answer of the resolver", "why_tests_cant": "the order of statements matters and is unbounded; tests use one order", "anchors": ["src/config.c: assign_address_string, assign_port_string, listener_parse_socket_from, resolve_listener_address, find_listener_ident, parse_listen_http, parse_listen_https"]}
{"id": "C79", "title": "The end of the server and the time of Grace", "statement": "After HUP or INT pound takes no new connection and goes on to answer the existing ones until they are done or the time of Grace has passed, whichever comes first; it never waits longer than there is something to wait for, and never ends earlier. After TERM or QUIT it ends without a delay.", "quantifier": "every schedule of arrivals, workers, signals, wakeups and times, every number of workers, every value of Grace, every change of the clock", "why_tests_cant": "whether a wakeup is lost and what is in the queue when the last worker ends depends on the interleaving; tests see a few of them", "anchors": ["src/pound.c: active_threads_incr, active_threads_decr, active_threads_wait, server", "src/http.c: thr_http, thr_dispatch", "doc/pound.8: Grace"]}
{"id": "C80", "title": "JSON values in memory", "statement": "A copy of a JSON value is the same value in memory of its own: the two can be used and released separately. The release of a value gives back all of its memory, once, and nothing else. Appending to an array, reading its elements and setting names of an object do what they say for every value and every number of elements, and leave no memory that belongs to nothing.", "quantifier": "every value of any depth and size, every layout of it in memory and everything else in memory, every sequence of appended values, every name", "why_tests_cant": "leaks and repeated releases depend on the shape of the value and the capacity of its arrays; a test sees only those it builds", "anchors": ["src/json.c: json_value_copy, json_value_free, json_new_array, json_array_append, json_array_insert, json_array_set, json_array_get, json_object_set", "src/mem.c: mem2nrealloc"]}
{"id": "C81", "title": "Locks: no deadlock, no unprotected use", "statement": "Threads never wait for one another in a circle, so pound never stops answering because of its own locks. A thread that waits for a peer or for a condition keeps no lock others need, and a thread that ends has none. The sessions and backends of a service are never looked at while another thread changes them.", "quantifier": "every number of threads of every kind (workers, dispatcher, timer, jobs, updates of dynamic backends, removals, control requests), every choice inside them, every interleaving, every tree of dynamic backends", "why_tests_cant": "deadlocks and races need a particular interleaving of threads; tests meet them by chance only", "anchors": ["src/svc.c: thr_timer, job_remove, job_cancel, job_enqueue, get_backend, kill_be, touch_be, service_serialize, locate_backend, disable_handler", "src/dynbe.c: service_matrix_addr_update_backends, service_matrix_srv_update_backends, backend_sweep, backend_matrix_disable, thr_backend_remover, backend_unref, job_resolver", "src/pound.c: pound_http_dequeue, active_threads_wait, vlogmsg", "src/bauth.c: auth_crypt"]}
{"id": "C82", "title": "Password files under concurrent requests", "statement": "A request with basic authentication gets the answer that the password file gives, also when other requests are being authenticated at the same time and the file is saved meanwhile: a user who is in the file before and after is not refused, a user who was deleted is not let in once the file has been read again, and no released memory is used.", "quantifier": "every number of requests at the same time, every interleaving of their steps with each other and with saves and removals of the file, every contents", "why_tests_cant": "the list is shared by all workers; what goes wrong depends on the interleaving", "anchors": ["src/bauth.c: pass_file_fill, user_pass_free, pass_file_changed, basic_auth_internal"]}
{"id": "C83", "title": "Which log format a listener uses", "statement": "The requests of a listener are logged with the format that its LogLevel names or numbers: the last LogLevel of its section, else the last global one before the section, else the regular format; directives that come later change nothing. A LogLevel that stands for no defined format is refused, and so is a LogFormat whose name is taken, or that does not compile, or that is one too many. LogFacility takes the names of syslog.", "quantifier": "every sequence of LogFormat, LogLevel and Listen sections, every name, number, format and request", "why_tests_cant": "it depends on the whole sequence of directives before the section", "anchors": ["src/config.c: parse_log_level, parse_log_format, compile_canned_formats, listener_alloc", "src/log.c: http_log_format_find, http_log_format_check, http_log", "src/cfgparser.c: cfg_assign_log_facility"]}
{"id": "C84", "title": "poundctl verifies the server", "statement": "Unless verification is switched off, poundctl sends a request, and with it the user name and password, over TLS only to a server whose certificate is trusted by CAFile or CAPath and was issued for the host in the URL. It connects to such a server if the network allows, encrypts exactly for https, and shows the client certificate that is configured and no other.", "quantifier": "every .poundctl, every command line, every peer and certificate, every outcome of system and library calls", "why_tests_cant": "peers and certificates are outside; all combinations of settings matter", "anchors": ["src/poundctl.c: open_socket, main, read_config"]}
{"id": "C85", "title": "Backends are connected to within ConnTO", "statement": "A connection to a backend is made if the backend accepts it within the connection timeout; otherwise the attempt ends with the reason of the backend or with a timeout. On success the socket is blocking again as it was before. The periodic probe finds a dead backend alive exactly if it accepts within the timeout.", "quantifier": "every behaviour of the backend in time, every timeout, every outcome of system calls", "why_tests_cant": "delays are unbounded and the timeouts of interest too long for tests; failures of system calls cannot be provoked", "anchors": ["src/svc.c: connect_nb, backend_probe"]}
