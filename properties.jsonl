{"id": "C01", "title": "INVITE client retransmission back-off", "statement": "A client INVITE transaction over UDP re-sends exactly the original INVITE, the wait before the k-th retransmission is min(T1*2^k, T2) after the first wait of T1, and it stops retransmitting once any response has been accepted; over TCP or TLS it never retransmits.", "quantifier": "all event sequences (requests, responses, timer expiries, transport errors) fed to a client INVITE transaction, all T1/T2 settings, all transports", "why_tests_cant": "must hold for every event history; a test drives one history", "anchors": ["crates/sip-transaction/src/fsm.rs:ClientInviteFsm", "crates/sip-transaction/src/timers.rs:TransportAwareTimers::duration"]}
{"id": "C02", "title": "INVITE client ACK discipline", "statement": "Every final response a client INVITE transaction accepts produces exactly one ACK instruction carrying that response (flagged 2xx or not), and no ACK is produced for anything else.", "quantifier": "all event sequences", "why_tests_cant": "must hold for every event history; a test drives one history", "anchors": ["crates/sip-transaction/src/fsm.rs:ClientInviteFsm::on_event", "crates/sip-transaction/src/fsm.rs:ClientInviteFsm::handle_final"]}
{"id": "C03", "title": "INVITE client transaction always has a deadline", "statement": "After the INVITE has been sent, a client INVITE transaction that is not terminated always has a termination timer armed (B or D), and that timer's expiry terminates it: it can never be left waiting for ever.", "quantifier": "all event sequences starting with the INVITE being sent", "why_tests_cant": "must hold for every event history; a test drives one history", "anchors": ["crates/sip-transaction/src/fsm.rs:ClientInviteFsm"]}
{"id": "C04", "title": "A ringing INVITE is not timed out by Timer B", "statement": "Once a provisional response has been received, Timer B no longer ends a client INVITE transaction (RFC 3261 17.1.1.2: Timer B only matters in the Calling state).", "quantifier": "all event sequences containing a provisional response", "why_tests_cant": "must hold for every event history; a test drives one history", "anchors": ["crates/sip-transaction/src/fsm.rs:ClientInviteFsm::on_event"]}
{"id": "C05", "title": "Non-INVITE client: final response delivered exactly once", "statement": "A client non-INVITE transaction hands at most one final response to its user, never retransmits after it, and after being started always has an armed timer (F or K) whose expiry terminates it.", "quantifier": "all event sequences", "why_tests_cant": "must hold for every event history; a test drives one history", "anchors": ["crates/sip-transaction/src/fsm.rs:ClientNonInviteFsm"]}
{"id": "C06", "title": "Non-INVITE server: retransmitted requests get the latest response", "statement": "A server non-INVITE transaction answers a retransmitted request with exactly the last response its user sent (nothing if none), emits at most one final response of its own accord, and ignores responses submitted after the final one.", "quantifier": "all event sequences", "why_tests_cant": "must hold for every event history; a test drives one history", "anchors": ["crates/sip-transaction/src/fsm.rs:ServerNonInviteFsm"]}
{"id": "C07", "title": "INVITE server: non-2xx final repeated until ACK, silent after", "statement": "A server INVITE transaction repeats its non-2xx final response with doubling intervals capped at T2 until the ACK arrives or Timer H fires, and once the ACK has arrived it transmits nothing more.", "quantifier": "all event sequences", "why_tests_cant": "must hold for every event history; a test drives one history", "anchors": ["crates/sip-transaction/src/fsm.rs:ServerInviteFsm"]}
{"id": "C08", "title": "A terminated transaction stays terminated", "statement": "Once any of the four transaction machines reaches Terminated it never leaves it, never transmits, retransmits, or arms a timer again; the only thing a terminated INVITE client still does is pass on and ACK a repeated 2xx.", "quantifier": "all event sequences, all four transaction kinds", "why_tests_cant": "must hold for every event history; a test drives one history", "anchors": ["crates/sip-transaction/src/fsm.rs"]}
{"id": "C09", "title": "Transaction tables are bounded", "statement": "The number of live server and client transactions never exceeds the configured limits (or 1 if the limit is 0), and what is evicted at the limit is the transaction with the earliest start time.", "quantifier": "all sequences of manager operations, all limits", "why_tests_cant": "must hold for every event history; a test drives one history", "anchors": ["crates/sip-transaction/src/manager.rs:TransactionManager::enforce_server_transaction_limit", "crates/sip-transaction/src/manager.rs:TransactionManager::enforce_client_transaction_limit"]}
{"id": "C10", "title": "Responses reach exactly the matching client transaction", "statement": "A response is given to the client transaction with the response's top Via branch and CSeq method and to no other; a response without a match changes no transaction; a retransmitted request is never presented to the transaction user a second time while its transaction is alive.", "quantifier": "all manager states and all received messages", "why_tests_cant": "must hold for every event history; a test drives one history", "anchors": ["crates/sip-transaction/src/manager.rs:TransactionManager::receive_response", "crates/sip-transaction/src/manager.rs:TransactionManager::receive_request"]}
{"id": "C11", "title": "Target fail-over is ordered and complete", "statement": "When a send fails the remaining targets are tried in order, each at most once; a transport error is reported if and only if every target failed.", "quantifier": "all target lists and all patterns of send failures", "why_tests_cant": "the space of failure patterns is unbounded", "anchors": ["crates/sip-transaction/src/manager.rs:dispatch_with_failover"]}
{"id": "C12", "title": "Rate limiter throughput bound", "statement": "For one key, the number of requests admitted in any time window of length L is at most burst + (tokens per refill)*(L / refill interval + 1) provided the key was not dropped from the table; tokens never exceed the burst capacity.", "quantifier": "all configurations, all arrival time sequences, all windows", "why_tests_cant": "needs every arrival pattern", "anchors": ["crates/sip-ratelimit/src/lib.rs:TokenBucket", "crates/sip-ratelimit/src/lib.rs:RateLimiter::check_rate_limit"]}
{"id": "C13", "title": "Rate limiter keys are independent", "statement": "The verdict for a key depends only on the requests made with that key and on time, not on traffic of other keys (as long as the table of tracked keys is not full).", "quantifier": "all interleavings of requests from all keys", "why_tests_cant": "needs every interleaving", "anchors": ["crates/sip-ratelimit/src/lib.rs:RateLimiter::check_rate_limit"]}
{"id": "C14", "title": "Idle cleanup does not weaken the limit", "statement": "Dropping an idle key never admits a request that keeping it would have refused.", "quantifier": "all configurations and arrival sequences", "why_tests_cant": "depends on relation between configuration values over all histories", "anchors": ["crates/sip-ratelimit/src/lib.rs:RateLimiter::cleanup_idle", "crates/sip-ratelimit/src/lib.rs:RateLimitConfig::with_idle_timeout"]}
{"id": "C15", "title": "Rate limiter memory is bounded", "statement": "The number of tracked keys never exceeds 100000; when full, unknown keys are refused and known keys are still served.", "quantifier": "all request sequences", "why_tests_cant": "needs every history", "anchors": ["crates/sip-ratelimit/src/lib.rs:MAX_TRACKED_KEYS", "crates/sip-ratelimit/src/lib.rs:RateLimiter::check_rate_limit"]}
{"id": "C16", "title": "Digest nonce counts cannot be replayed", "statement": "For a given nonce the server never accepts the same nonce count for two different requests: accepted counts of distinct requests are strictly increasing and each step is bounded.", "quantifier": "all sequences of authentication attempts, all nonces", "why_tests_cant": "needs every history of attempts", "anchors": ["crates/sip-auth/src/lib.rs:Nonce::validate_nc_with_request", "crates/sip-auth/src/lib.rs:NonceManager::verify_with_nc"]}
{"id": "C17", "title": "Digest client and server agree", "statement": "For every hash function, algorithm (plain or -sess), qop and credential, the response the digest client produces for a challenge is the one the server computes, so a client with the right password is accepted and acceptance implies equality with the digest of the stored password.", "quantifier": "all hash functions, credentials, challenges, methods, URIs and bodies", "why_tests_cant": "the input space is infinite and tests use fixed vectors", "anchors": ["crates/sip-auth/src/lib.rs:compute_response", "crates/sip-auth/src/lib.rs:DigestClient::generate_authorization", "crates/sip-auth/src/lib.rs:DigestAuthenticator::prepare_digest"]}
{"id": "C18", "title": "Nonce store is bounded", "statement": "The number of live nonces never exceeds the configured maximum.", "quantifier": "all sequences of nonce generation and expiry, all maxima", "why_tests_cant": "needs every history", "anchors": ["crates/sip-auth/src/lib.rs:NonceManager::generate", "crates/sip-auth/src/lib.rs:NonceManager::remove_oldest"]}
{"id": "C19", "title": "A failed authentication does not consume a nonce count", "statement": "An authentication attempt with a wrong digest leaves the nonce state as it was, so an attacker who saw the nonce cannot invalidate the legitimate client's next request.", "quantifier": "all nonce states and attempts", "why_tests_cant": "adversarial interleaving", "anchors": ["crates/sip-auth/src/lib.rs:DigestAuthenticator::prepare_digest"]}
{"id": "C20", "title": "Authentication-Info round trip and rspauth agreement", "statement": "Formatting an Authentication-Info value and parsing it back yields the same value, and the rspauth the server computes is the one the client verifies.", "quantifier": "all field values without quotes, commas or backslashes, all hash functions", "why_tests_cant": "infinite input space", "anchors": ["crates/sip-auth/src/lib.rs:AuthenticationInfo::parse", "crates/sip-auth/src/lib.rs:AuthenticationInfo::to_header_value", "crates/sip-auth/src/lib.rs:DigestClient::verify_auth_info"]}
{"id": "C21", "title": "In-dialog requests are accepted in strictly increasing CSeq order", "statement": "The remote CSeq numbers of the non-ACK requests a dialog accepts are strictly increasing, each within the allowed jump and range.", "quantifier": "all sequences of in-dialog requests", "why_tests_cant": "needs every history", "anchors": ["crates/sip-dialog/src/lib.rs:Dialog::update_from_request"]}
{"id": "C22", "title": "A rejected in-dialog message leaves the dialog unchanged", "statement": "If processing a request or response on a dialog reports an error the dialog is exactly as before.", "quantifier": "all dialogs and messages", "why_tests_cant": "needs all inputs and states", "anchors": ["crates/sip-dialog/src/lib.rs:Dialog::update_from_request", "crates/sip-dialog/src/lib.rs:Dialog::update_from_response"]}
{"id": "C23", "title": "Dialog identity and route set are stable", "statement": "Call-ID, local tag and URIs never change; the route set and remote tag are fixed by the response that confirmed the dialog and no later message alters them; the UAC route set is the reverse of the Record-Route order and the UAS set follows it.", "quantifier": "all message sequences on all dialogs", "why_tests_cant": "needs every history", "anchors": ["crates/sip-dialog/src/lib.rs:Dialog::new_uac", "crates/sip-dialog/src/lib.rs:Dialog::new_uas", "crates/sip-dialog/src/lib.rs:Dialog::update_from_response"]}
{"id": "C24", "title": "A terminated dialog never revives", "statement": "No sequence of operations returns a terminated dialog to the early or confirmed state.", "quantifier": "all operation sequences", "why_tests_cant": "needs every history", "anchors": ["crates/sip-dialog/src/lib.rs:Dialog::confirm", "crates/sip-dialog/src/lib.rs:Dialog::terminate", "crates/sip-dialog/src/lib.rs:Dialog::update_from_response"]}
{"id": "C25", "title": "Dialog table is bounded and keyed by identity", "statement": "The number of stored dialogs never exceeds the maximum, at most the allowed number of early dialogs share a Call-ID, and each id maps to one dialog.", "quantifier": "all sequences of manager operations", "why_tests_cant": "needs every history", "anchors": ["crates/sip-dialog/src/lib.rs:DialogManager::insert", "crates/sip-dialog/src/lib.rs:DialogManager::cleanup_terminated"]}
{"id": "C26", "title": "Local CSeq numbers are fresh", "statement": "The CSeq numbers a dialog hands out for its own requests are strictly increasing until the protocol maximum.", "quantifier": "all numbers of requests", "why_tests_cant": "unbounded histories", "anchors": ["crates/sip-dialog/src/lib.rs:Dialog::next_local_cseq"]}
{"id": "C27", "title": "The ACK of an accepted INVITE is accepted", "statement": "After a dialog accepted an INVITE with CSeq n, the ACK with CSeq n is accepted whatever other in-dialog requests were accepted in between.", "quantifier": "all sequences of in-dialog requests between INVITE and ACK", "why_tests_cant": "needs every interleaving", "anchors": ["crates/sip-dialog/src/lib.rs:Dialog::update_from_request"]}
{"id": "C28", "title": "Each reliable provisional is acknowledged at most once", "statement": "A PRACK is accepted only if its RAck names a registered, not yet acknowledged reliable provisional of that dialog, and no provisional is acknowledged twice.", "quantifier": "all sequences of registrations, PRACKs and clean-ups", "why_tests_cant": "needs every history", "anchors": ["crates/sip-dialog/src/prack_validator.rs:PrackValidator::register_reliable_provisional", "crates/sip-dialog/src/prack_validator.rs:PrackValidator::validate_prack"]}
{"id": "C29", "title": "Pending reliable provisionals are bounded", "statement": "At most 10 reliable provisionals are remembered per dialog, and the ones dropped are the oldest.", "quantifier": "all registration sequences", "why_tests_cant": "needs every history", "anchors": ["crates/sip-dialog/src/prack_validator.rs:PrackValidator::register_reliable_provisional"]}
{"id": "C30", "title": "RAck/RSeq text round trip", "statement": "Printing an RAck or RSeq value and parsing it back yields the same value, and parsing accepts only numbers in range.", "quantifier": "all values", "why_tests_cant": "infinite input space", "anchors": ["crates/sip-dialog/src/prack_validator.rs:RAck", "crates/sip-core/src/rseq.rs"]}
{"id": "C31", "title": "Session timer negotiation respects both sides", "statement": "The negotiated session interval is never above the requested value and never below either side's Min-SE, and negotiation fails exactly when the request is below the minimum.", "quantifier": "all requested values and minimums", "why_tests_cant": "all numeric inputs", "anchors": ["crates/sip-dialog/src/session_timer_manager.rs:negotiate_session_expires"]}
{"id": "C32", "title": "A refreshed session does not expire", "statement": "If a session timer is restarted before it fires, the expiry of the old timer never terminates or removes the new one.", "quantifier": "all interleavings of timer tasks and restarts", "why_tests_cant": "race between tasks", "anchors": ["crates/sip-dialog/src/session_timer_manager.rs:SessionTimerManager::start_timer"]}
{"id": "C33", "title": "Registrar storage bounds and uniqueness", "statement": "An address of record never has more than 20 bindings nor two bindings with the same contact, and the store never holds more than 100000 bindings.", "quantifier": "all sequences of store operations", "why_tests_cant": "needs every history", "anchors": ["crates/sip-registrar/src/lib.rs:MemoryLocationStore::upsert"]}
{"id": "C34", "title": "Lookups never return expired bindings", "statement": "A lookup at time t returns exactly the stored bindings whose expiry is after t, and cleanup removes only expired ones.", "quantifier": "all histories and times", "why_tests_cant": "needs every history", "anchors": ["crates/sip-registrar/src/lib.rs:MemoryLocationStore::lookup", "crates/sip-registrar/src/lib.rs:MemoryLocationStore::cleanup_expired"]}
{"id": "C35", "title": "Old REGISTERs cannot overwrite newer ones", "statement": "For a contact already registered under a Call-ID, a REGISTER with the same Call-ID and a CSeq not greater than the stored one never changes or removes the binding.", "quantifier": "all histories of REGISTER requests, including wildcard removal", "why_tests_cant": "needs every history", "anchors": ["crates/sip-registrar/src/lib.rs:BasicRegistrar::handle_register"]}
{"id": "C36", "title": "REGISTER is all-or-nothing", "statement": "If a REGISTER is answered with an error, no binding was added, changed or removed by it.", "quantifier": "all REGISTER requests and store states", "why_tests_cant": "needs all inputs", "anchors": ["crates/sip-registrar/src/lib.rs:BasicRegistrar::handle_register"]}
{"id": "C37", "title": "Only the authorised user can change bindings", "statement": "With authentication configured, the bindings of an address of record are added, refreshed or removed only by a request authenticated as the user part of that address.", "quantifier": "all REGISTER requests", "why_tests_cant": "adversarial inputs", "anchors": ["crates/sip-registrar/src/lib.rs:BasicRegistrar::handle_register", "crates/sip-registrar/src/lib.rs:aor_identity", "crates/sip-registrar/src/lib.rs:usernames_equal"]}
{"id": "C38", "title": "Address-of-record canonicalisation", "statement": "Normalising an address of record is idempotent and ignores host case, URI parameters and the order of tel parameters, so equivalent spellings share bindings.", "quantifier": "all URIs", "why_tests_cant": "infinite input space", "anchors": ["crates/sip-registrar/src/lib.rs:normalize_aor", "crates/sip-registrar/src/lib.rs:normalize_sip_aor", "crates/sip-registrar/src/lib.rs:normalize_tel_aor"]}
{"id": "C39", "title": "Forked best response selection", "statement": "When the last branch completes, the response forwarded upstream is a best one received: 6xx before 2xx before the lowest class, first received among equals (with 401/407 challenges aggregated).", "quantifier": "all fork sizes and response arrival orders", "why_tests_cant": "needs every arrival order", "anchors": ["crates/sip-proxy/src/stateful.rs:select_best_response", "crates/sip-proxy/src/stateful.rs:ProxyContext::process_response"]}
{"id": "C40", "title": "A forked request gets exactly one non-2xx final upstream", "statement": "A proxy context forwards at most one non-2xx final response upstream, and forwards a final only when a 2xx or 6xx arrived or every branch has finished.", "quantifier": "all fork sizes and arrival orders, including retransmitted responses", "why_tests_cant": "needs every interleaving", "anchors": ["crates/sip-proxy/src/stateful.rs:ProxyContext::process_response", "crates/sip-proxy/src/stateful.rs:ProxyContext::add_branch"]}
{"id": "C41", "title": "Every 2xx is forwarded", "statement": "Every 2xx response received from any branch is forwarded upstream.", "quantifier": "all arrival orders", "why_tests_cant": "needs every arrival order", "anchors": ["crates/sip-proxy/src/stateful.rs:ProxyContext::process_response"]}
{"id": "C42", "title": "Loop detection finds every loop through this proxy", "statement": "If a request that this proxy forwarded returns with the same routing-relevant fields, loop detection rejects it; a spiral with a different Request-URI is let through unless the hash collides.", "quantifier": "all requests and further Via headers added by others", "why_tests_cant": "all requests and hop sequences", "anchors": ["crates/sip-proxy/src/lib.rs:add_via_with_loop_detection", "crates/sip-proxy/src/lib.rs:detect_loop_hashed"]}
{"id": "C43", "title": "Max-Forwards bounds the number of hops", "statement": "Every forwarding step strictly decreases Max-Forwards, a request at 0 is rejected, so a request is forwarded at most 255 times.", "quantifier": "all requests, all hop counts", "why_tests_cant": "unbounded hop sequences", "anchors": ["crates/sip-core/src/max_forwards.rs:decrement_max_forwards", "crates/sip-proxy/src/lib.rs:check_max_forwards"]}
{"id": "C44", "title": "Strict-route rewriting is reversible", "statement": "Applying the strict-routing swap at one proxy and the recovery at the next restores the original Request-URI and route set.", "quantifier": "all requests and route sets", "why_tests_cant": "infinite input space", "anchors": ["crates/sip-proxy/src/lib.rs:apply_strict_routing_swap", "crates/sip-proxy/src/lib.rs:recover_strict_routed_request_uri"]}
{"id": "C45", "title": "Via push and pop are inverse", "statement": "Removing the top Via of a response undoes exactly the Via this proxy added to the request, leaving all other headers in order.", "quantifier": "all messages", "why_tests_cant": "infinite input space", "anchors": ["crates/sip-proxy/src/lib.rs:add_via", "crates/sip-proxy/src/lib.rs:remove_top_via"]}
{"id": "C46", "title": "Record-Route order", "statement": "A proxy that record-routes puts itself before the Record-Route entries already present, so that the route set visits the proxies in path order.", "quantifier": "all requests and proxy chains", "why_tests_cant": "needs all chains", "anchors": ["crates/sip-proxy/src/lib.rs:add_record_route"]}
{"id": "C47", "title": "Forking by q-value", "statement": "Grouping contacts by q value is a permutation of the contacts, cohorts are in descending q order, equal q values share a cohort and keep their order.", "quantifier": "all contact lists", "why_tests_cant": "infinite input space", "anchors": ["crates/sip-proxy/src/location.rs:group_by_q_value"]}
{"id": "C48", "title": "Proxy context table and branch counts are bounded", "statement": "At most 10000 proxy contexts and 50 branches per context exist, and no branch is added after a 6xx was received.", "quantifier": "all operation sequences", "why_tests_cant": "needs every history", "anchors": ["crates/sip-proxy/src/stateful.rs:StatefulProxy::start_context", "crates/sip-proxy/src/stateful.rs:ProxyContext::add_branch"]}
{"id": "C49", "title": "Request serialise/parse round trip", "statement": "Parsing a serialised request yields the same method, Request-URI, header list (canonical names, computed Content-Length last, Max-Forwards added if absent) and body.", "quantifier": "all requests built through the API within the size limits", "why_tests_cant": "infinite input space", "anchors": ["crates/sip-parse/src/lib.rs:serialize_request", "crates/sip-parse/src/lib.rs:parse_request"]}
{"id": "C50", "title": "Response serialise/parse round trip", "statement": "Parsing a serialised response yields the same status, reason, headers and body.", "quantifier": "all responses built through the API within the size limits", "why_tests_cant": "infinite input space", "anchors": ["crates/sip-parse/src/lib.rs:serialize_response", "crates/sip-parse/src/lib.rs:parse_response"]}
{"id": "C51", "title": "No header injection", "statement": "The serialised form of a message contains exactly one line per header plus the start line, the blank line and the body: no header value or reason phrase accepted by the API can add a line.", "quantifier": "all accepted header names and values", "why_tests_cant": "adversarial inputs", "anchors": ["crates/sip-core/src/headers.rs:validate_header_value", "crates/sip-parse/src/lib.rs:serialize_request"]}
{"id": "C52", "title": "Accepted messages are well framed", "statement": "A message accepted by the strict parser has a body of exactly Content-Length bytes, at most one of each singleton header, a CSeq in 1..2^31-1 and, for a request, a CSeq method equal to the request method.", "quantifier": "all byte strings", "why_tests_cant": "all byte strings", "anchors": ["crates/sip-parse/src/lib.rs:parse_request_strict", "crates/sip-parse/src/lib.rs:extract_body_strict", "crates/sip-parse/src/lib.rs:parse_and_validate_cseq"]}
{"id": "C53", "title": "Header collections stay within limits", "statement": "A header collection never exceeds 200 headers, 128-byte names and 8192-byte values, whatever sequence of API calls built it; order is preserved and lookup returns the first match ignoring case.", "quantifier": "all sequences of API calls", "why_tests_cant": "needs every history", "anchors": ["crates/sip-core/src/headers.rs"]}
{"id": "C54", "title": "Via header round trip", "statement": "For any text accepted as a Via header, printing the parsed value and parsing again gives the same value; a Via built through the API prints to text that parses back to it.", "quantifier": "all texts and all built values", "why_tests_cant": "infinite input space", "anchors": ["crates/sip-core/src/via.rs"]}
{"id": "C55", "title": "Token list round trip", "statement": "A token list prints to text that parses back to the same list.", "quantifier": "all token lists", "why_tests_cant": "infinite input space", "anchors": ["crates/sip-core/src/token_list.rs"]}
{"id": "C56", "title": "SIP URI text is faithful", "statement": "The text of a SIP URI produced by the API parses back to the same user, host, port and parameters.", "quantifier": "all URIs built or modified through the API", "why_tests_cant": "infinite input space", "anchors": ["crates/sip-core/src/uri.rs:SipUri::parse", "crates/sip-core/src/uri.rs:build_raw_sip_uri"]}
{"id": "C57", "title": "Method token round trip", "statement": "Printing a method and parsing it back gives the same method, and two methods with the same token are equal.", "quantifier": "all methods including extension methods", "why_tests_cant": "infinite input space", "anchors": ["crates/sip-core/src/method.rs"]}
{"id": "C58", "title": "Stream framing does not depend on segmentation", "statement": "The sequence of SIP messages extracted from a TCP/TLS byte stream does not depend on how the bytes were split into reads.", "quantifier": "all byte streams and all segmentations", "why_tests_cant": "needs every segmentation", "anchors": ["crates/sip-transport/src/lib.rs:drain_sip_frames"]}
{"id": "C59", "title": "Stream framing loses and invents no bytes", "statement": "Each extracted message is a header block ended by the first blank line plus exactly Content-Length bytes, messages appear in stream order, and apart from CR/LF between messages every byte is in exactly one message or still buffered.", "quantifier": "all byte streams", "why_tests_cant": "infinite input space", "anchors": ["crates/sip-transport/src/lib.rs:drain_sip_frames", "crates/sip-transport/src/lib.rs:parse_content_length"]}
{"id": "C60", "title": "SIPS is never sent over an insecure transport and large requests avoid UDP", "statement": "The default transport policy returns a secure transport whenever the URI is SIPS, and never UDP for a payload above the MTU.", "quantifier": "all requested transports, payload sizes", "why_tests_cant": "all inputs", "anchors": ["crates/sip-transport/src/lib.rs:DefaultTransportPolicy::choose"]}
{"id": "C61", "title": "Connection pool never exceeds its size", "statement": "Established plus in-progress pooled connections never exceed the configured maximum.", "quantifier": "all interleavings of concurrent sends, closes, evictions and clean-ups", "why_tests_cant": "needs every interleaving", "anchors": ["crates/sip-transport/src/pool.rs:ConnectionPool::reserve_slot", "crates/sip-transport/src/pool.rs:ConnectionPool::send_tcp"]}
{"id": "C62", "title": "A finished connection does not tear down its successor", "statement": "When the writer of an old connection ends, a newer connection to the same peer stays in the pool.", "quantifier": "all interleavings", "why_tests_cant": "race between tasks", "anchors": ["crates/sip-transport/src/pool.rs:spawn_writer_supervisor"]}
{"id": "C63", "title": "SDP answers match the offer line by line", "statement": "A negotiated answer has one m-line per offered m-line, same media type and protocol in the same order; at most one m-line of each type is accepted and the rest have port 0.", "quantifier": "all offers and capabilities", "why_tests_cant": "infinite input space", "anchors": ["crates/sip-sdp/src/negotiate.rs:negotiate_answer"]}
{"id": "C64", "title": "Negotiated codecs are common codecs", "statement": "Every format in an accepted answer line was offered and is supported locally (static payload type or same codec name/rate/params), in the offerer's order.", "quantifier": "all offers and capabilities", "why_tests_cant": "infinite input space", "anchors": ["crates/sip-sdp/src/negotiate.rs:find_common_formats"]}
{"id": "C65", "title": "Negotiated direction is consistent", "statement": "The answered direction lets the answerer send only if the offerer receives and the answerer is willing, and vice versa; an answerable stream is never refused as a whole session because of direction.", "quantifier": "all direction pairs in all offers", "why_tests_cant": "combinations in whole offers", "anchors": ["crates/sip-sdp/src/negotiate.rs:Direction::negotiate", "crates/sip-sdp/src/negotiate.rs:negotiate_media"]}
{"id": "C66", "title": "SRV/address target ordering", "statement": "The targets returned are a permutation of the usable DNS records, sorted by ascending SRV priority whatever the random choices; addresses interleave IPv6 and IPv4 keeping their order; a SIPS URI only yields TLS.", "quantifier": "all record sets and random choices", "why_tests_cant": "random choices and all record sets", "anchors": ["crates/sip-dns/src/lib.rs:select_by_weight", "crates/sip-dns/src/lib.rs:SipResolver::lookup_srv", "crates/sip-dns/src/lib.rs:SipResolver::lookup_a_aaaa"]}
{"id": "C67", "title": "DHCP option and ENUM decoding", "statement": "Encoding a list of SIP servers as DHCP option 120 data and decoding it returns the list, malformed data is rejected without reading out of bounds; the ENUM domain of an E.164 number determines the number.", "quantifier": "all lists and byte strings", "why_tests_cant": "infinite input space", "anchors": ["crates/sip-dns/src/lib.rs:parse_dhcp_option_120", "crates/sip-dns/src/enum_lookup.rs:enum_to_domain"]}
{"id": "C68", "title": "Call-ID correlation for captures", "statement": "The Call-ID extracted for capture from a serialised message equals its Call-ID header and is never taken from the body.", "quantifier": "all messages", "why_tests_cant": "infinite input space", "anchors": ["crates/sip-hep/src/headers.rs:extract_call_id"]}
{"id": "C69", "title": "Server INVITE transaction has a deadline after its final response", "statement": "After a server INVITE transaction has sent a non-2xx final response and until it terminates, a timer (H or I) is armed whose expiry terminates it.", "quantifier": "every event history and timer setting", "why_tests_cant": "histories are unbounded", "anchors": ["crates/sip-transaction/src/fsm.rs:ServerInviteTransaction"]}
{"id": "C70", "title": "No client transaction is leaked", "statement": "After any sequence of manager operations every client transaction still in the table has a timer pending whose expiry removes it, so no client transaction can stay in memory for ever.", "quantifier": "all sequences of manager operations, all network outcomes", "why_tests_cant": "It is an invariant over all interleavings of responses, timers, errors and evictions; a test explores a few.", "anchors": ["crates/sip-transaction/src/manager.rs: apply_client_actions, reap_terminated_client, schedule_client_timer, handle_client_timer"]}
{"id": "C71", "title": "Reported remaining tokens are accurate", "statement": "If the limiter reports n remaining tokens for a key seen within the idle timeout, then of the requests made for that key at that moment exactly the first n are admitted.", "quantifier": "all configurations, all histories, all numbers of follow-up requests", "why_tests_cant": "needs every reachable bucket state", "anchors": ["crates/sip-ratelimit/src/lib.rs:RateLimiter::remaining_tokens"]}
{"id": "C72", "title": "Announced retry-after is sufficient", "statement": "A client that waits the announced retry_after finds its bucket full again.", "quantifier": "all configurations, histories and waiting times", "why_tests_cant": "needs every bucket state and rounding case", "anchors": ["crates/sip-ratelimit/src/lib.rs:RateLimiter::get_limit_info"]}
{"id": "C73", "title": "Expired nonces are never accepted", "statement": "A request is authenticated only with a nonce this server issued itself in an earlier challenge, and not later than the configured lifetime after issuing it.", "quantifier": "all histories of challenges, attempts and cleanups, all clocks", "why_tests_cant": "needs every history and every eviction", "anchors": ["crates/sip-auth/src/lib.rs:Nonce::is_valid", "crates/sip-auth/src/lib.rs:NonceManager::verify_with_nc"]}
{"id": "C74", "title": "Nonce reuse window", "statement": "Once a nonce has been used, a request is accepted with it only if it was presented within the configured reuse window before.", "quantifier": "all histories of attempts and clocks", "why_tests_cant": "needs every history", "anchors": ["crates/sip-auth/src/lib.rs:Nonce::validate_nc_with_request"]}
{"id": "C75", "title": "Password guessing is rate limited", "statement": "With a rate limiter attached, the number of authentication attempts from one source address that reach the credential check within a window is bounded by the limiter's burst and refill, whatever the interleaving with other calls.", "quantifier": "all histories, sources, configurations and windows", "why_tests_cant": "needs every interleaving of sources and windows", "anchors": ["crates/sip-auth/src/lib.rs:DigestAuthenticator::prepare_digest", "crates/sip-auth/src/lib.rs:extract_rate_limit_key"]}
{"id": "C76", "title": "Ending timers follow RFC 3261 table 4", "statement": "Whenever a transaction starts one of its ending timers (B, D, F, H, I, J, K) it asks for the duration RFC 3261 table 4 gives for the transport: 64*T1 for B, F and H on every transport; 32 s, T4 and 64*T1 for D, I/K and J on UDP and zero on TCP and TLS.", "quantifier": "all timer configurations with 64*T1 representable, all transports, all event histories of the four machines", "why_tests_cant": "needs every history and configuration", "anchors": ["crates/sip-transaction/src/timers.rs:TransportAwareTimers::duration", "crates/sip-transaction/src/fsm.rs"]}
{"id": "C77", "title": "Transactions are not prolonged and leave no stray timers", "statement": "Repeated messages do not restart an ending timer: B/F are started once, D/K/J at most once, H and I at most once per final response the user submits. In every state before termination only the timers that belong to that state are armed; in particular no retransmission timer stays armed once retransmission must stop (A after any response, E after the final response, G after the ACK).", "quantifier": "all event histories of the four machines", "why_tests_cant": "an arbitrary interleaving of duplicates, timers and user actions could leave a timer behind", "anchors": ["crates/sip-transaction/src/fsm.rs"]}
{"id": "C78", "title": "Expiry of an armed ending timer ends the transaction", "statement": "In every reachable state that is not terminated, the expiry of an armed ending timer terminates the transaction; the transaction user is told exactly once for B, F, H, I and J, and not again for D and K.", "quantifier": "all event histories and ending timers of the four machines", "why_tests_cant": "needs every reachable state", "anchors": ["crates/sip-transaction/src/fsm.rs"]}
{"id": "C79", "title": "URI text cannot break out of its header line", "statement": "No SIP URI obtained through the API, by parsing or by any sequence of builder calls, has a control character (CR, LF, NUL, ...) in its text, and every such URI respects the documented limits on host, user, port, parameters and headers.", "quantifier": "all starting texts and all sequences of builder calls", "why_tests_cant": "unit tests try a few bad characters per builder", "anchors": ["crates/sip-core/src/uri.rs:SipUri::new", "crates/sip-core/src/uri.rs:SipUri::parse", "crates/sip-core/src/uri.rs:with_user"]}
{"id": "C80", "title": "In-dialog requests reach their dialog and no other", "statement": "A request is matched to the stored dialog whose Call-ID equals the request's, whose remote tag is the request's From tag and whose local tag is its To tag, and to no other; a request made with one end's identifiers always matches the other end's dialog.", "quantifier": "every table reachable by any interleaving of inserts, removals and cleanups, every request, every pair of ends built from one response", "why_tests_cant": "tags, Call-IDs and table contents are unbounded; a swap of local and remote is invisible when a test uses equal tags", "anchors": ["crates/sip-dialog/src/lib.rs:DialogManager::find_by_request", "crates/sip-dialog/src/lib.rs:Dialog::matches_request", "crates/sip-dialog/src/lib.rs:extract_tag"]}
{"id": "C81", "title": "No message makes the dialog layer panic", "statement": "Creating, matching or looking up a dialog from any received message, and asking for a refresh, returns a value and never panics.", "quantifier": "every header text, including non-ASCII, and every session interval the API accepts", "why_tests_cant": "the panicking inputs are specific byte alignments of multi-byte characters and extreme durations", "anchors": ["crates/sip-dialog/src/lib.rs:extract_tag", "crates/sip-dialog/src/lib.rs:Dialog::needs_refresh", "crates/sip-dialog/src/lib.rs:validate_session_expires"]}
{"id": "C82", "title": "RSeq numbers are consecutive", "statement": "For a dialog that is not removed, the RSeq numbers handed out start between 1 and 2^31-1 and each is one more than the one before, whatever happens on other dialogs, up to the 32-bit maximum.", "quantifier": "all histories of the RSeq counter over all dialogs and random seeds", "why_tests_cant": "needs every history", "anchors": ["crates/sip-dialog/src/lib.rs:RSeqManager::next_rseq", "crates/sip-core/src/rseq.rs:RSeqHeader::new"]}
{"id": "C83", "title": "Exactly one side refreshes the session", "statement": "Given the same refresher parameter, exactly one of the two ends considers itself the refresher, and a parameter naming an end makes that end the refresher.", "quantifier": "all parameter texts, both roles", "why_tests_cant": "all texts", "anchors": ["crates/sip-dialog/src/session_timer_manager.rs:determine_refresher_role", "crates/sip-core/src/session_timer.rs:RefresherRole::parse"]}
{"id": "C84", "title": "Session-Expires and Min-SE text round trip", "statement": "A Session-Expires or Min-SE value reads back from its text, and parsing any text yields only values between 90 and 86400 (7200 for Min-SE) seconds.", "quantifier": "all values and all texts", "why_tests_cant": "infinite input space", "anchors": ["crates/sip-core/src/session_timer.rs:SessionExpires::parse", "crates/sip-core/src/session_timer.rs:MinSessionExpires::parse"]}
{"id": "C85", "title": "A REGISTER touches only its own address and the contacts it names", "statement": "Whatever the answer, a REGISTER changes no lookup of any address of record other than that of its To header, and, unless it is a wildcard, nothing about contacts it does not list.", "quantifier": "every REGISTER, configuration, clock, store content and other address or contact", "why_tests_cant": "The set of other addresses, stores and malformed requests is unbounded; a test only ever looks at a few bindings.", "anchors": ["crates/sip-registrar/src/lib.rs handle_register", "crates/sip-registrar/src/lib.rs upsert", "crates/sip-registrar/src/lib.rs remove_binding"]}
{"id": "C86", "title": "The 200 response to REGISTER lists exactly the current bindings", "statement": "The Contact headers of a 200 answer to a non-wildcard REGISTER are exactly the bindings a lookup of the address of record returns at that moment, in the same order and with the remaining seconds.", "quantifier": "every REGISTER answered 200, every store and clock", "why_tests_cant": "Needs every combination of existing, expired, refreshed and removed bindings.", "anchors": ["crates/sip-registrar/src/lib.rs handle_register", "crates/sip-registrar/src/lib.rs format_contact"]}
{"id": "C87", "title": "A 200 answer to REGISTER means the request took effect", "statement": "After a 200 answer each contact of the request (its last mention) is gone if its expiry is zero and is otherwise bound for exactly the requested time, within the configured limits and the absolute 60 s to 86400 s, under the Call-ID and CSeq of the request; a wildcard leaves no binding.", "quantifier": "every REGISTER answered 200, any number and repetition of contacts", "why_tests_cant": "Repeated contacts, conflicting parameters and interleavings with expiry cannot be enumerated.", "anchors": ["crates/sip-registrar/src/lib.rs handle_register", "crates/sip-registrar/src/lib.rs requested_expires"]}
{"id": "C88", "title": "Different addresses of record never share bindings", "statement": "Two URIs whose scheme, user, host or port differ have different addresses of record.", "quantifier": "all pairs of parsed SIP URIs", "why_tests_cant": "An injectivity claim over all pairs of texts.", "anchors": ["crates/sip-registrar/src/lib.rs normalize_aor"]}
{"id": "C89", "title": "A display name cannot change the URI of a name-addr", "statement": "A quoted display name in front of a name-addr, whatever characters it contains, does not change which URI the header names.", "quantifier": "all display names without quotes or backslashes, all URIs", "why_tests_cant": "Injection through arbitrary display names is a property of every string.", "anchors": ["crates/sip-parse/src/header_values.rs parse_name_addr"]}
{"id": "C90", "title": "A new dialog reflects the messages it was made from", "statement": "A dialog exists only for 1xx and 2xx responses, is early or confirmed accordingly, starts with the CSeq number of the request on the right side, targets the peer's Contact (or the remote URI), is secure when either URI is sips, and has the Call-ID and tags of the response on the right sides.", "quantifier": "all requests, responses and URIs", "why_tests_cant": "Any combination of header spellings, codes and roles.", "anchors": ["crates/sip-dialog/src/lib.rs Dialog::new_uac", "crates/sip-dialog/src/lib.rs Dialog::new_uas"]}
{"id": "C91", "title": "A URI builder call changes only the part it names", "statement": "Each builder call that succeeds sets its part and leaves scheme, user, host, port, headers and all other parameters as they were.", "quantifier": "all URIs and all builder calls", "why_tests_cant": "Frame property over all URIs.", "anchors": ["crates/sip-core/src/uri.rs SipUri::with_user", "crates/sip-core/src/uri.rs SipUri::with_param"]}
{"id": "C92", "title": "A digest client never reuses a nonce count", "statement": "The k-th Authorization value a client produces carries the nonce count start + k.", "quantifier": "all clients and call sequences, below 2^32 requests", "why_tests_cant": "Unbounded call sequences.", "anchors": ["crates/sip-auth/src/lib.rs DigestClient::generate_authorization"]}
{"id": "C93", "title": "The proxy forwards only what it received", "statement": "Every response a forking proxy context forwards upstream was received on one of its branches before (or is the proxy's own 408 for Timer C or 503 for a transport error); a final one may carry extra challenges, each taken from a 401/407 received before. Provisional responses are forwarded in the order received, none dropped or repeated.", "quantifier": "all interleavings of concurrent calls on a context", "why_tests_cant": "needs every schedule", "anchors": ["crates/sip-proxy/src/stateful.rs:ProxyContext::process_response", "crates/sip-proxy/src/stateful.rs:ProxyContext::aggregate_auth_challenges", "crates/sip-proxy/src/stateful.rs:ProxyContext::fire_timer_c"]}
{"id": "C94", "title": "A forked request is always answered", "statement": "Once every branch of a forked request has given a final response and no call is running, a final response has been forwarded upstream.", "quantifier": "all interleavings of concurrent calls on a context", "why_tests_cant": "needs every schedule", "anchors": ["crates/sip-proxy/src/stateful.rs:ProxyContext::process_response", "crates/sip-proxy/src/stateful.rs:ProxyContext::add_branch"]}
{"id": "C95", "title": "CANCELs after a final response", "statement": "After a forked INVITE is answered with a final response that ends the fork (2xx or 6xx), every branch still waiting for a final response is sent exactly one CANCEL, once, and no other branch is; each CANCEL matches the INVITE it cancels (single Via equal to its top Via, Request-URI, Call-ID, From, To, Route set, CSeq number, method CANCEL).", "quantifier": "every request, target list, history of responses, errors and timeouts, and hash map order", "why_tests_cant": "histories and target lists are unbounded; the match has to hold for every header set", "anchors": ["crates/sip-proxy/src/service.rs:start_forking", "crates/sip-proxy/src/service.rs:handle_branch_response", "crates/sip-proxy/src/stateful.rs:build_cancel_requests", "crates/sip-proxy/src/cancel_ack.rs:prepare_cancel"]}
{"id": "C96", "title": "Forking never panics", "statement": "Starting to fork a request that the parser accepted returns a result or an error; it does not panic.", "quantifier": "every request with valid headers, every target list and configuration", "why_tests_cant": "needs all header sets, including the largest and non-ASCII ones", "anchors": ["crates/sip-proxy/src/service.rs:start_forking", "crates/sip-proxy/src/service.rs:extract_top_via_branch", "crates/sip-proxy/src/lib.rs:add_via"]}
{"id": "C97", "title": "ACK forwarding", "statement": "An ACK for a failure response is forwarded unchanged; an ACK for a 2xx keeps its Request-URI when the next Route entry is a loose route.", "quantifier": "every ACK request", "why_tests_cant": "all Route header sets", "anchors": ["crates/sip-proxy/src/cancel_ack.rs:prepare_ack"]}
{"id": "C98", "title": "Choice of targets when forking", "statement": "Sequential forking sends to the best target (lowest priority number, then highest q, then first in the list); parallel forking sends one request to each of the up to 100 targets, in order.", "quantifier": "every target list, request and configuration", "why_tests_cant": "target lists are arbitrary; the choice depends on all elements", "anchors": ["crates/sip-proxy/src/service.rs:start_forking"]}
{"id": "C99", "title": "REGISTER responses can be matched and routed back", "statement": "Every response the registrar builds for a REGISTER, success or error, carries all Via lines, the From, Call-ID and CSeq of the request, and its To with exactly one tag.", "quantifier": "every request header list, store, configuration and authentication outcome in which the registrar itself answers", "why_tests_cant": "whether a response can be routed back depends on arbitrary header lists and on which of many error paths is taken", "anchors": ["crates/sip-registrar/src/lib.rs:handle_register", "crates/sip-registrar/src/lib.rs:build_error_response", "crates/sip-registrar/src/lib.rs:ensure_to_tag"]}
{"id": "C100", "title": "Accepted messages can be passed on", "statement": "Serialising a message that either parser accepted gives bytes that both parsers accept, unless they exceed the size or header limits; the next hop sees the same method, Request-URI (or status), headers and body, and serialising what it received gives the same bytes again.", "quantifier": "all byte strings accepted by a parser", "why_tests_cant": "all byte strings; the second hop's parser runs on text the first hop's input determines", "anchors": ["crates/sip-parse/src/lib.rs:parse_request", "crates/sip-parse/src/lib.rs:serialize_request", "crates/sip-parse/src/lib.rs:parse_response", "crates/sip-parse/src/lib.rs:serialize_response"]}
{"id": "C101", "title": "Responses reflect where the request came from", "statement": "The first Via line of every response a UAS sends gets the request's source port as rport when the client asked with a bare rport, and the source address as received when that happened or when the sent-by names another host; every other parameter of that line, every other Via and every other header is left as it was.", "quantifier": "all response header lists, all source addresses and ports", "why_tests_cant": "tests use a handful of Via lines; the claim is about every parameter order, letter case, sent-by form and number of Vias", "anchors": ["crates/sip-uas/src/integrated.rs:apply_via_rport_received", "crates/sip-uas/src/integrated.rs:sent_by_host", "crates/sip-core/src/via.rs:ViaHeader::set_param"]}
{"id": "C102", "title": "A stream connection keeps at most one incomplete message", "statement": "Whatever a peer sends on a stream and however it is cut into reads, the bytes kept between reads are fewer than one maximal message (64 KiB of header, blank line, 10 MiB of body), and the connection is closed only because the bytes sent are not a sequence of messages within the limits.", "quantifier": "all byte streams and all segmentations", "why_tests_cant": "the bound must hold for every attacker-chosen stream", "anchors": ["crates/sip-transport/src/lib.rs:drain_sip_frames", "crates/sip-transport/src/lib.rs:run_tcp", "crates/sip-transport/src/pool.rs"]}
{"id": "C103", "title": "What the library sends on a stream, the library frames", "statement": "Any sequence of requests and responses made and serialised with the API, written to one stream with CR LF keep-alives between them, is delivered to the receiver as exactly those messages whatever the segmentation.", "quantifier": "all sequences of API messages with header blocks of at most 65533 bytes, all keep-alives, all segmentations", "why_tests_cant": "needs every sequence and every segmentation", "anchors": ["crates/sip-parse/src/lib.rs:serialize_request", "crates/sip-parse/src/lib.rs:serialize_response", "crates/sip-transport/src/lib.rs:drain_sip_frames"]}
{"id": "C104", "title": "Payloads go to the peer they were sent to, once and in order", "statement": "What a pooled connection has written, followed by what it still holds, is exactly the payloads of the sends that returned Ok on it, in the order in which they returned, and each such send used a connection to the peer it named. A payload whose send returned Ok is lost only if its connection fails.", "quantifier": "all interleavings of concurrent sends, cancellations, failures, evictions and clean-ups", "why_tests_cant": "needs every interleaving of callers, writers and supervisors", "anchors": ["crates/sip-transport/src/pool.rs:ConnectionPool::send_tcp", "crates/sip-transport/src/pool.rs:TlsPool::send_tls"]}
{"id": "C105", "title": "A full pool makes room predictably", "statement": "A send that finds a slot free closes nothing. If the pool is full exactly the idle connections are closed; if there are none, the least recently used tenth (at least one) of the TCP or TLS connections; if there are none of these the send fails and nothing is closed.", "quantifier": "all pool states reachable by any interleaving", "why_tests_cant": "depends on the pool's contents and the ages of all its connections", "anchors": ["crates/sip-transport/src/pool.rs:ConnectionPool::reserve_slot", "crates/sip-transport/src/pool.rs:ConnectionPool::evict_lru", "crates/sip-transport/src/pool.rs:ConnectionPool::cleanup_idle"]}
{"id": "C106", "title": "A slow peer does not block the threads of the runtime", "statement": "While sends wait for room on one connection, the other tasks, among them the writer that makes the room, go on.", "quantifier": "all numbers of threads, all schedules", "why_tests_cant": "needs a schedule in which every thread of the runtime is blocked", "anchors": ["crates/sip-transport/src/pool.rs:ConnectionPool::send_tcp"]}
{"id": "C107", "title": "Negotiated format parameters belong to the negotiated codec", "statement": "In an accepted answer line each negotiated payload type carries the local a=fmtp parameters of that codec, or the offered ones if there are none, no other payload type has parameters, and a=ptime is the local value or else the offered one.", "quantifier": "all offers and capabilities, all payload types", "why_tests_cant": "depends on every attribute list on both sides and on the numbering of dynamic payload types", "anchors": ["crates/sip-sdp/src/negotiate.rs:negotiate_media", "crates/sip-sdp/src/attrs.rs:set_fmtp", "crates/sip-sdp/src/attrs.rs:set_ptime"]}
{"id": "C108", "title": "A session description survives being written and read", "statement": "A description read from text, or any description whose fields are well formed, is written to a text that reads back as exactly the same description, unless the text is over the reader's limits; different descriptions have different texts.", "quantifier": "all session descriptions, all texts, all limits", "why_tests_cant": "ranges over every combination of fields, repetitions and characters", "anchors": ["crates/sip-sdp/src/parse.rs:parse_sdp_with_limits", "crates/sip-sdp/src/serialize.rs:serialize_sdp"]}
{"id": "C109", "title": "Unknown transport protocols do not make a description unreadable", "statement": "A media line whose transport protocol is not one of those built in is read with that protocol's name, and the rest of the description is read as usual.", "quantifier": "all descriptions and all protocol names", "why_tests_cant": "the names not built in are unboundedly many, and the rest of the description is arbitrary", "anchors": ["crates/sip-sdp/src/parse.rs:parse_protocol", "crates/sip-sdp/src/parse.rs:parse_m_line"]}
{"id": "C110", "title": "SRV weights are honoured", "statement": "Over equally likely random draws, a server of the best SRV priority is tried first as often as its share of the weights of that priority, and equally often as the others if no record has a weight.", "quantifier": "all record sets and all draws", "why_tests_cant": "a statement about all random draws; a test sees a sample", "anchors": ["crates/sip-dns/src/lib.rs:select_by_weight", "crates/sip-dns/src/lib.rs:SipResolver::lookup_srv"]}
{"id": "C111", "title": "The certificate is checked against the name in the URI", "statement": "For every target of a URI the name used for TLS identity checks is the host of the URI, whatever the DNS answers.", "quantifier": "all URIs, all DNS answers and draws", "why_tests_cant": "DNS answers are under the control of others", "anchors": ["crates/sip-dns/src/lib.rs:SipResolver::resolve", "crates/sip-dns/src/lib.rs:DnsTarget::sni"]}
{"id": "C112", "title": "Targets use the transport the URI asks for", "statement": "A SIPS URI yields only TLS targets, a transport parameter yields only targets of that transport, and otherwise targets use the default transports.", "quantifier": "all URIs, all DNS answers and draws", "why_tests_cant": "DNS answers are under the control of others", "anchors": ["crates/sip-dns/src/lib.rs:SipResolver::resolve", "crates/sip-dns/src/lib.rs:SipResolver::default_transport"]}
{"id": "C113", "title": "ENUM record choice and use", "statement": "Of the ENUM records found the one with the least order and preference for the SIP service is used, and its rewriting expression yields the URI it stands for.", "quantifier": "all record sets and expressions", "why_tests_cant": "infinite input space", "anchors": ["crates/sip-dns/src/enum_lookup.rs:select_best_sip_record", "crates/sip-dns/src/enum_lookup.rs:EnumNaptrRecord::extract_uri"]}
{"id": "C114", "title": "What is signed is what is read and verified", "statement": "A token produced by signing is decoded to exactly the attestation, numbers, time, origination identifier and certificate address given, verifies under the matching key, and the Identity header value built from it is read back with those parameters.", "quantifier": "all signing parameters (any Unicode text, any 64-bit time), any signing key", "why_tests_cant": "infinite input space; escaping, base64 and JSON interact", "anchors": ["crates/sip-identity/src/sign.rs:sign_shaken", "crates/sip-identity/src/sign.rs:SignedPassport", "crates/sip-identity/src/passport.rs:Passport::decode", "crates/sip-identity/src/header.rs:IdentityHeader::parse"]}
{"id": "C115", "title": "The signature covers the token as sent", "statement": "A token is decoded exactly when its three parts are canonical base64url of JSON documents with the fields read; the signature is checked over the first two parts byte for byte, so equal signed bytes give equal claims and no two tokens are read alike.", "quantifier": "all strings, all keys and signature schemes", "why_tests_cant": "infinite input space; tampering can be arbitrary", "anchors": ["crates/sip-identity/src/passport.rs:Passport::decode", "crates/sip-identity/src/verify.rs:verify_signature"]}
{"id": "C116", "title": "Verification against a certificate chain", "statement": "Verification succeeds exactly when the algorithm is ES256, the leaf and every trust anchor can be read, the path to an anchor holds at the given time, and the 64-byte signature, in its one DER form, verifies under the leaf over the signed bytes.", "quantifier": "all decoded tokens, certificates, anchors and times", "why_tests_cant": "infinite input space; DER integers have boundary cases at every leading byte", "anchors": ["crates/sip-identity/src/chain.rs:verify_with_chain", "crates/sip-identity/src/chain.rs:jose_to_der"]}
{"id": "C117", "title": "Reading the Identity header", "statement": "The header's parameters are read whatever the blanks and the case of their names, the last of a name counting, quotes and angle brackets removed; an info value without angle brackets and a value over 8192 bytes are refused; and parameters that contradict the token are refused.", "quantifier": "all header values", "why_tests_cant": "infinite input space", "anchors": ["crates/sip-identity/src/header.rs:IdentityHeader::parse"]}
{"id": "C118", "title": "A decoded token has what SHAKEN requires", "statement": "A token that is decoded carries typ, ppt, x5u, attestation, both numbers, a time and an origination identifier.", "quantifier": "all tokens", "why_tests_cant": "infinite input space; attackers choose the token", "anchors": ["crates/sip-identity/src/passport.rs:Passport::decode", "crates/sip-identity/src/passport.rs:PassportClaims"]}
{"id": "C119", "title": "Every request a client builds is complete and says what was asked for", "statement": "Whatever the call and its arguments, a request that is built has exactly one Via, From, To, Call-ID, CSeq (1 to 2^32-1, with the request's own method), Max-Forwards 70, User-Agent and a Content-Length equal to its body's length, the method, body, type, Contact and other headers that the call stands for, and no Contact where RFC 3428 forbids one.", "quantifier": "all clients, identifiers and calls of the request builders", "why_tests_cant": "infinitely many arguments; a header that appears twice or is missing only shows for some combination of options", "anchors": ["crates/sip-uac/src/lib.rs:UserAgentClient::create_invite_with_from", "crates/sip-uac/src/lib.rs:UserAgentClient::create_bye", "crates/sip-uac/src/lib.rs:UserAgentClient::create_message"]}
{"id": "C120", "title": "Every request names the parties and the dialog it belongs to", "statement": "A request outside a dialog goes to its target with new identifiers and CSeq 1 and comes from the configured, or overriding, address; a request inside a dialog goes to the remote target with the dialog's Call-ID, tags, remote address and next CSeq, and comes from the dialog's local address; a NOTIFY carries its subscription's identifiers.", "quantifier": "all clients, dialogs, subscriptions and calls", "why_tests_cant": "depends on every field of the dialog; a mix-up of local and remote shows only when they differ", "anchors": ["crates/sip-uac/src/lib.rs:UserAgentClient::create_reinvite", "crates/sip-uac/src/lib.rs:UserAgentClient::create_notify", "crates/sip-uac/src/lib.rs:UserAgentClient::create_bye"]}
{"id": "C121", "title": "Building a request never panics", "statement": "No call of a request builder panics, whatever its arguments.", "quantifier": "all clients, identifiers and calls", "why_tests_cant": "infinitely many inputs; the panic is behind an unwrap on a length or character check elsewhere", "anchors": ["crates/sip-uac/src/lib.rs:UserAgentClient::create_subscribe", "crates/sip-uac/src/lib.rs:UserAgentClient::create_prack", "crates/sip-core/src/headers.rs:Headers::push"]}
{"id": "C122", "title": "A display name cannot change who a request comes from", "statement": "Reading the From of any request a client builds gives the sender's address and tag, whatever display name was set.", "quantifier": "all display names, addresses and calls", "why_tests_cant": "infinitely many display names, among them crafted ones", "anchors": ["crates/sip-uac/src/lib.rs:UserAgentClient::set_display_name", "crates/sip-uac/src/lib.rs:escape_quoted_string", "crates/sip-uac/src/lib.rs:UserAgentClient::create_reinvite"]}
{"id": "C123", "title": "The REGISTERs of a client form one series per registrar", "statement": "In every history of calls, all REGISTERs to one registrar carry the same Call-ID and From, and of two REGISTERs with the same Call-ID the later has the greater CSeq.", "quantifier": "all histories of calls, all registrars", "why_tests_cant": "unbounded histories; table limits and shared maps matter only late", "anchors": ["crates/sip-uac/src/lib.rs:UserAgentClient::create_register", "crates/sip-uac/src/lib.rs:UserAgentClient::next_register_cseq"]}
{"id": "C124", "title": "A challenged request is repeated unchanged", "statement": "When the client answers a 401 or 407, the new request has the same method, request URI, body and header values as the old one, except that exactly one credentials header is added, the CSeq number is one higher and the Via has a new branch and is otherwise the same.", "quantifier": "every client state, random text, request and response for which an answer is built; the CSeq and Via claims for requests whose Via and CSeq names are spelled as the library spells them", "why_tests_cant": "A test compares a few headers of one request; the claim is about every header of every request and every Via parameter list.", "anchors": ["crates/sip-uac/src/lib.rs:create_authenticated_request_with", "crates/sip-uac/src/lib.rs:replace_via_branch"]}
{"id": "C125", "title": "The library's client satisfies the library's server", "statement": "The request built in answer to a challenge issued by DigestAuthenticator is accepted by that authenticator, for every algorithm, qop, realm, nonce, user and body, while the nonce is valid.", "quantifier": "every authenticator configuration without rate limit, nonce, time within the nonce lifetime, client credentials known to the store, request without earlier credentials", "why_tests_cant": "Both sides compute a digest over a dozen quoted fields; only a proof covers every combination of algorithm, session variant, qop and quoting.", "anchors": ["crates/sip-uac/src/lib.rs:create_authenticated_request_with", "crates/sip-auth/src/lib.rs:DigestAuthenticator::verify", "crates/sip-uac/src/auth_utils.rs:extract_realm"]}
{"id": "C126", "title": "A challenge is read for what it says", "statement": "Reading a Digest challenge yields its realm, nonce, opaque, algorithm and qop; no challenge makes the client panic or be taken for another scheme.", "quantifier": "every realm, nonce and opaque the server can put in quotes, every algorithm and qop, stale or not; for the negative part every header value", "why_tests_cant": "Challenges come from the network; a test has only the spellings its author thought of.", "anchors": ["crates/sip-uac/src/lib.rs:parse_www_authenticate", "crates/sip-uac/src/lib.rs:split_auth_params"]}
{"id": "C127", "title": "In-dialog requests are numbered and routed by the dialog", "statement": "Preparing a request for a dialog gives it the dialog's next CSeq number exactly once, the request URI and Route headers that RFC 3261 12.2.1.1 asks for with no, loose or strict first route, and the right next hop, keeps every other header, method and body, and changes nothing of the dialog but its number; successive requests get successive numbers.", "quantifier": "every dialog, request and list of requests, up to 2^32-1", "why_tests_cant": "The routing rules depend on the whole route set and the numbers on the whole history.", "anchors": ["crates/sip-uac/src/integrated.rs:prepare_in_dialog_request", "crates/sip-uac/src/integrated.rs:apply_route_set_to_request"]}
{"id": "C128", "title": "ACK belongs to its INVITE", "statement": "The ACK of a failure has the INVITE's URI, top Via, From, Call-ID, CSeq number and Route and the response's To; the ACK of a 2xx follows the dialog's route set with a new branch and carries the answer, with the same identity headers.", "quantifier": "every INVITE, response, dialog and session description", "why_tests_cant": "A mismatch in any of the copied headers for any spelling or number of them breaks transaction matching.", "anchors": ["crates/sip-uac/src/integrated.rs:send_ack", "crates/sip-uac/src/lib.rs:create_ack"]}
{"id": "C129", "title": "CANCEL matches its INVITE", "statement": "A CANCEL has the INVITE's URI, Via, From, To, Call-ID, Route and CSeq number, the method CANCEL, no body and no other header.", "quantifier": "every INVITE whose header names are spelled as the library spells them", "why_tests_cant": "The set of copied and dropped headers must be right for every INVITE, not only those of a test.", "anchors": ["crates/sip-uac/src/integrated.rs:CallHandle::cancel"]}
{"id": "C130", "title": "Sharing a dialog never reuses a CSeq number", "statement": "However session refreshes, their completions and the owner's requests interleave, no CSeq number goes out twice in a dialog.", "quantifier": "every finite interleaving of reserve, send and commit steps of any number of refreshes with requests of the owner, below 2^32", "why_tests_cant": "Races appear in particular schedules only.", "anchors": ["crates/sip-uac/src/integrated.rs:refresh_shared_session", "crates/sip-uac/src/integrated.rs:commit_advanced_dialog", "crates/sip-uac/src/integrated.rs:start_session_timer"]}
{"id": "C131", "title": "Session refreshing stops exactly when it should", "statement": "The session timer reports every refresh, stops when the dialog is gone or after max(1, limit) failures in a row and not before, and reports nothing afterwards.", "quantifier": "every limit and every finite sequence of refresh outcomes", "why_tests_cant": "The count of consecutive failures depends on the whole history.", "anchors": ["crates/sip-uac/src/integrated.rs:run_session_timer"]}
{"id": "C132", "title": "Retries with credentials are bounded", "statement": "A challenged request is sent at most 1 + max_auth_retries times, and exactly once more for each challenge until then.", "quantifier": "every limit, every sequence of final responses, automatic retry on or off", "why_tests_cant": "The bound must hold for every sequence of responses.", "anchors": ["crates/sip-uac/src/integrated.rs:retry_with_auth", "crates/sip-uac/src/integrated.rs:send_non_invite_request", "crates/sip-uac/src/integrated.rs:InviteTransactionUser::on_final"]}
{"id": "C133", "title": "Requests follow the Service-Route", "statement": "After a successful registration, requests get the Service-Route addresses as Route headers, in order and in front of those already there, with nothing else changed; a success without Service-Route clears them and a failure keeps the old ones.", "quantifier": "every grouping of up to 50 proxy addresses into header lines, every request", "why_tests_cant": "Order and completeness must hold for every list and every way of splitting it over header lines.", "anchors": ["crates/sip-uac/src/lib.rs:process_register_response", "crates/sip-uac/src/lib.rs:apply_service_route", "crates/sip-parse/src/header_values.rs:parse_service_route"]}
{"id": "C134", "title": "Filling in addresses keeps the transaction", "statement": "Writing the local address into the Via keeps the branch and every other header; writing it into the Contact keeps the user and the header parameters.", "quantifier": "every request with one Via of the library's shape, every address; every Contact of the form <sip:user@host> with parameters", "why_tests_cant": "A lost or cut branch breaks matching only for particular branch texts.", "anchors": ["crates/sip-uac/src/integrated.rs:fill_via_header", "crates/sip-uac/src/integrated.rs:fill_contact_header", "crates/sip-uac/src/integrated.rs:build_via_value"]}
{"id": "C135", "title": "Responses echo the request", "statement": "Every response a user agent server builds has the wanted status, all Via and Record-Route values in order, the From, Call-ID and CSeq of the request, a To with a tag (none added for 100), a Content-Length that is the size of the body, and the headers of its kind; for requests of moderate size it is always built.", "quantifier": "every request, every response kind, status, reason, body and tag", "why_tests_cant": "Order, completeness and size must hold for every number and arrangement of headers.", "anchors": ["crates/sip-uas/src/lib.rs:create_response", "crates/sip-uas/src/lib.rs:create_ok", "crates/sip-uas/src/lib.rs:ensure_to_tag"]}
{"id": "C136", "title": "One tag per call", "statement": "The To of a response has exactly one tag: the one the request brought, else the server's, and every response of one call has the same.", "quantifier": "every To value, every tag", "why_tests_cant": "Where a tag can hide in a header depends on the whole text.", "anchors": ["crates/sip-uas/src/lib.rs:ensure_to_tag", "crates/sip-uas/src/lib.rs:generate_tag"]}
{"id": "C137", "title": "A call from end to end", "statement": "An INVITE built by the client is accepted by the server; the dialogs of both ends are mirror images; every request the client then builds inside the call is found and accepted by the server, and a BYE is answered 200 and ends the dialog.", "quantifier": "every client, target, offer, answer and tag; every in-dialog request the client can build", "why_tests_cant": "Both programs must agree for every identity and every call, which examples of one side cannot show.", "anchors": ["crates/sip-uac/src/lib.rs:create_invite", "crates/sip-uas/src/lib.rs:accept_invite", "crates/sip-dialog/src/lib.rs:new_uac", "crates/sip-dialog/src/lib.rs:new_uas", "crates/sip-uas/src/lib.rs:handle_bye"]}
{"id": "C138", "title": "Requests inside a dialog", "statement": "BYE, INFO, REFER, UPDATE and PRACK reach the application with the dialog they are addressed to, and only if Call-ID and both tags match; otherwise they are answered 481 and change nothing.", "quantifier": "every request, every set of dialogs", "why_tests_cant": "The match must hold for every pair of dialog and request.", "anchors": ["crates/sip-uas/src/lib.rs:handle_bye", "crates/sip-uas/src/lib.rs:handle_info", "crates/sip-uas/src/lib.rs:accept_refer", "crates/sip-uas/src/integrated.rs:dispatch"]}
{"id": "C139", "title": "Authentication comes first", "statement": "If authentication is required, no request but ACK reaches the application or creates a call unless the authenticator accepted it; others get the challenge.", "quantifier": "every method, request, verdict and challenge", "why_tests_cant": "No path may go around the gate.", "anchors": ["crates/sip-uas/src/integrated.rs:dispatch", "crates/sip-uas/src/lib.rs:verify_authentication", "crates/sip-uas/src/lib.rs:accept_invite"]}
{"id": "C140", "title": "Both ends agree on the session timer", "statement": "A call accepted with a session timer has it in the answer with Require: timer, between both minimums, and both dialogs hold the same interval and refresher; it is refused with 422 exactly when the interval asked for is below the server's minimum, which the 422 names.", "quantifier": "every requested interval, minimum, policy and refresher", "why_tests_cant": "Agreement must hold for every combination of values.", "anchors": ["crates/sip-uas/src/lib.rs:accept_invite_with_session_timer", "crates/sip-uas/src/lib.rs:create_session_interval_too_small", "crates/sip-dialog/src/session_timer_manager.rs:negotiate_session_timer"]}
{"id": "C141", "title": "Reliable provisional responses", "statement": "A reliable response carries Require: 100rel and the next RSeq of its dialog; the PRACK the client builds for it is answered 200 the first time and never again.", "quantifier": "every call, code from 101 to 199, series of responses, time up to five minutes", "why_tests_cant": "It must hold for every history of responses and PRACKs.", "anchors": ["crates/sip-uas/src/lib.rs:create_reliable_provisional", "crates/sip-uas/src/lib.rs:handle_prack", "crates/sip-dialog/src/prack_validator.rs:validate_prack", "crates/sip-uac/src/lib.rs:create_prack"]}
{"id": "C142", "title": "Every request is dealt with once", "statement": "A request that is let in is either answered by the server or given to the application, exactly once and never both; only an ACK outside of any dialog is dropped. A CANCEL the application takes is followed by a 487 for the INVITE it names.", "quantifier": "every request, configuration and set of dialogs", "why_tests_cant": "Two answers or none would show only for particular methods and states.", "anchors": ["crates/sip-uas/src/integrated.rs:dispatch", "crates/sip-uas/src/integrated.rs:UasRequestHandler"]}
{"id": "C143", "title": "Headers filled in before sending", "statement": "Before a response leaves, the top Via is completed, Contact names the advertised address, Allow and Server are added if missing, nothing else changes, and doing it again changes nothing.", "quantifier": "every response, configuration and source address", "why_tests_cant": "Idempotence and the frame condition range over all headers.", "anchors": ["crates/sip-uas/src/integrated.rs:auto_fill_headers", "crates/sip-uas/src/integrated.rs:prepare_response", "crates/sip-uas/src/integrated.rs:build_contact_value"]}
{"id": "C144", "title": "Subscriptions and notifications", "statement": "An accepted SUBSCRIBE is answered with the lifetime the server keeps; its notifications go to the subscriber, with both tags, the event and consecutive CSeq numbers, and end the subscription exactly when the reported status is final.", "quantifier": "every SUBSCRIBE and every series of reported statuses", "why_tests_cant": "Numbering and state must hold along every series.", "anchors": ["crates/sip-uas/src/lib.rs:accept_subscribe", "crates/sip-uas/src/lib.rs:create_notify_sipfrag", "crates/sip-dialog/src/lib.rs:new_notifier"]}
{"id": "C145", "title": "The Replaces header and attended transfers", "statement": "A Replaces value is read as the Call-ID, tags and early-only flag it states, whatever the order, case and blanks of its parameters, and what was read is read back the same after being written; the REFER of an attended transfer carries exactly the identifiers of the dialog to be replaced.", "quantifier": "every Replaces text, every header built from parts, every dialog and transfer target", "why_tests_cant": "Whether a transfer finds the right dialog depends on every possible identifier surviving escaping and parsing.", "anchors": ["crates/sip-core/src/replaces.rs:parse", "crates/sip-core/src/replaces.rs:new", "crates/sip-uac/src/lib.rs:create_refer_with_replaces"]}
{"id": "C146", "title": "Privacy requests are honoured", "statement": "A Privacy header is read as the values it lists, whatever their case and blanks, and enforcing it removes the revealing headers and the asserted identities, replaces the addresses of From and Contact by the anonymous one keeping only their header parameters, and leaves everything else alone.", "quantifier": "every Privacy text, every header collection and every set of privacy values", "why_tests_cant": "What must not leak depends on every header value; a test checks a few messages.", "anchors": ["crates/sip-core/src/privacy.rs:parse", "crates/sip-core/src/privacy.rs:enforce_privacy", "crates/sip-core/src/privacy.rs:requires_privacy_enforcement"]}
{"id": "C147", "title": "Reason header", "statement": "A Reason header is read as written: the protocol in its usual spelling, and each parameter, plain, quoted or bare, under its lower-case name; duplicates, control characters and oversized parts are refused. The header for an ISDN cause or a response code reports that code and text. A header that is written and read again comes back exactly if no name or value contains a separator and no quoted text contains a backslash.", "quantifier": "every protocol, parameter list, blank and quoting choice; every header value a constructor or the parser yields", "why_tests_cant": "The escapes and separators that break the round trip are rare in test data.", "anchors": ["crates/sip-core/src/reason.rs:ReasonHeader", "crates/sip-core/src/reason.rs:FromStr", "crates/sip-core/src/reason.rs:Q850Cause", "crates/sip-core/src/reason.rs:unescape_quoted_string"]}
{"id": "C148", "title": "Session descriptions survive the wire", "statement": "Writing a session description that keeps the documented limits and parsing the text gives the same session description, field for field, including groups, media identifiers, RTCP addresses and capability sets. Everything the parser accepts keeps these limits. LF, CRLF and blank lines make no difference, and lines are written in the order of RFC 4566.", "quantifier": "every session description within the limits; every text; every choice of line ends", "why_tests_cant": "The description has some thirty fields with separate limits, separators and hidden attributes; tests try a few bodies.", "anchors": ["crates/sip-core/src/sdp.rs:SdpSession::parse", "crates/sip-core/src/sdp.rs:MediaDescription::parse", "crates/sip-core/src/sdp.rs:Display", "crates/sip-core/src/sdp.rs:extract_capability_set_from_attributes", "crates/sip-core/src/sdp.rs:parse_time_zones"]}
{"id": "C149", "title": "The answer to an offer", "statement": "An answer has as many streams as the offer, in the same order and of the same kinds. A stream the application rejects, or that has no codec in common, is declined with port 0. Every other stream lists exactly the common codecs, each once and meaning the same as in the offer, with the first parameter line of each, the mirrored direction, and ports from the base port on in steps of two. An offer of more than twenty streams is refused, and the answer reads back as it was made.", "quantifier": "every offer (any number of streams, formats and attributes), every set of options, and every order in which a hash map may yield the codecs", "why_tests_cant": "offers and codec lists are unbounded and the order of a hash map differs from run to run", "anchors": ["crates/sip-core/src/sdp_offer_answer.rs:OfferAnswerEngine::generate_answer", "crates/sip-core/src/sdp_offer_answer.rs:negotiate_media", "crates/sip-core/src/sdp.rs:RtpMap::parse"]}
{"id": "C150", "title": "Hold and resume", "statement": "An offer that puts a call on hold keeps everything but the directions and the version: each stream sends as before and receives nothing, so that whoever answers it sends nothing; the offer that resumes receives again. The version rises by one. Hold and resume give a stream its direction back exactly if it received before.", "quantifier": "every session, every stream of it, every answerer", "why_tests_cant": "sessions have any number of streams and attributes in any order, and the answer depends on the order of a hash map", "anchors": ["crates/sip-core/src/sdp_offer_answer.rs:create_hold_offer", "crates/sip-core/src/sdp_offer_answer.rs:create_resume_offer"]}
{"id": "C151", "title": "Preconditions", "statement": "A stream may start if and only if each mandatory precondition is covered by the current status of its kind. The answer repeats each quality-of-service precondition seen from the other side, and optional ones become mandatory only if the application asks for it. Capitals in the values do not matter.", "quantifier": "every session, every stream, every list of curr, des and conf lines, every spelling", "why_tests_cant": "the lines come in any number and order and any mixture of capitals", "anchors": ["crates/sip-core/src/sdp.rs:are_preconditions_met", "crates/sip-core/src/sdp.rs:CurrentStatus::parse", "crates/sip-core/src/sdp_offer_answer.rs:handle_preconditions"]}
{"id": "C152", "title": "Capabilities", "statement": "The capabilities of a user agent are read from the parameters of a Contact header as they were written, except that those that are false are not told. Capabilities match a list of requirements if and only if each required feature is there with a value that satisfies it: tokens and lists without regard to case, texts exactly, numbers closely.", "quantifier": "every set of capabilities with any tokens, lists, texts and numbers; every list of requirements", "why_tests_cant": "values are arbitrary texts that could be mistaken for one another", "anchors": ["crates/sip-core/src/capabilities.rs:CapabilitySet::to_params", "crates/sip-core/src/capabilities.rs:CapabilitySet::from_params", "crates/sip-core/src/capabilities.rs:CapabilitySet::matches"]}
{"id": "C153", "title": "Caller preferences", "statement": "Contacts that a Reject-Contact matches or that fail a required Accept-Contact are dropped, and no others. Each of the rest is given the average of its scores, between 0 and 1. They are put in order of q, then of that average, and keep the order they had where both are equal.", "quantifier": "every list of contacts with their capabilities, every list of Accept-Contact and Reject-Contact", "why_tests_cant": "any number of contacts and preferences combine; order and stability are statements about all of them", "anchors": ["crates/sip-core/src/caller_preferences.rs:score_contacts", "crates/sip-core/src/caller_preferences.rs:AcceptContact::matches", "crates/sip-core/src/caller_preferences.rs:RejectContact::matches"]}
{"id": "C154", "title": "Request-Disposition", "statement": "Of each kind of directive the last one in the header counts, in any case, with any blanks and with unknown words between; a header with a control character or without any known directive is refused. What is written is read back.", "quantifier": "every text; every disposition", "why_tests_cant": "texts hold any number of directives in any order", "anchors": ["crates/sip-core/src/caller_preferences.rs:RequestDisposition::parse"]}
{"id": "C155", "title": "CPIM round trip", "statement": "A CPIM message is read back from its text as it was: nothing in a header value, in the type or in the body makes, hides or changes a header, a content header or the body; only blanks round values are lost.", "quantifier": "every message that can be built through the interface, every header value and body, line breaks and control characters included", "why_tests_cant": "values and bodies are arbitrary and the format is split at blank lines", "anchors": ["crates/sip-core/src/cpim.rs:CpimMessage::to_string", "crates/sip-core/src/cpim.rs:parse_cpim"]}
{"id": "C156", "title": "CPIM limits", "statement": "Every CPIM message that can be built and every one that is accepted has at most 50 headers, 20 content headers, 10 parameters each and 10 MB, with names and types free of separators and control characters; and every such message can be written.", "quantifier": "every sequence of building steps, every text", "why_tests_cant": "sequences of steps and texts are unbounded", "anchors": ["crates/sip-core/src/cpim.rs:CpimMessage", "crates/sip-core/src/cpim.rs:parse_cpim"]}
{"id": "C157", "title": "CPIM values and edits", "statement": "An escaped value is one line without control characters and is unescaped to the same value. Setting a header leaves that one value, adding appends one, nothing else changes, and an edit is refused exactly for a bad name, a value that is too long or too many headers.", "quantifier": "every value, every message, every edit", "why_tests_cant": "values are arbitrary texts", "anchors": ["crates/sip-core/src/cpim.rs:escape_header_value", "crates/sip-core/src/cpim.rs:CpimMessage::set_header", "crates/sip-core/src/cpim.rs:CpimMessage::add_header"]}
{"id": "C158", "title": "Message summaries survive writing and reading", "statement": "A message summary (message waiting indication) built through the interface, written and read again has the same status, account, counts per class and message headers, but for white space round values; what is lost otherwise is exactly known: of several message headers one is left, holding the last value given for each field", "quantifier": "every summary that the constructors and setters can build", "why_tests_cant": "all combinations of classes, 32-bit counts, texts and header lists", "anchors": ["crates/sip-core/src/message_waiting.rs: MessageSummary, MessageHeader, Display, parse_message_summary, parse_message_counts"]}
{"id": "C159", "title": "What an accepted message summary says", "statement": "A text that is accepted is within all limits; its status is that of the last Messages-Waiting line, of which there is at least one; the counts of a class are those of its last readable line; CRLF and LF line ends mean the same; totals are the sums of the counts", "quantifier": "every text, every class", "why_tests_cant": "arbitrary texts from the network, any order and repetition of lines", "anchors": ["crates/sip-core/src/message_waiting.rs: parse_message_summary, parse_message_counts, total_new, total_old, total, total_urgent"]}
{"id": "C160", "title": "Presence documents survive writing and reading", "statement": "A presence document built through the interface, written as XML and read again has the same entity, tuples (identifier, status, contact, notes, timestamp) and notes, in the same order, but for white space round contacts, notes and timestamps, whatever markup their texts hold; no text can add, hide or change an element", "quantifier": "every document that the constructors can build whose text is at most 1 MiB", "why_tests_cant": "all texts, including markup and entity references, and all nestings of notes and tuples", "anchors": ["crates/sip-core/src/presence.rs: PresenceDocument::to_xml, Tuple::to_xml, parse_pidf, parse_tuple, xml_escape, xml_unescape, extract_document_notes"]}
{"id": "C161", "title": "What an accepted presence document says", "statement": "A document that is accepted is within all limits (it could have been built through the interface); the elements it holds are those of the XML", "quantifier": "every text", "why_tests_cant": "arbitrary texts from the network", "anchors": ["crates/sip-core/src/presence.rs: parse_pidf, parse_tuple, extract_attribute, extract_element_with_range"]}
{"id": "C162", "title": "A MIME type survives writing and reading", "statement": "Every MIME type that can be built has a type, subtype and parameter names that are lower-case tokens of at most 64 characters, at most 20 parameters with different names, and values without control characters; written and read again it is the same unless a value holds a semicolon, in which case reading refuses it; whatever is read can be written and read again unchanged.", "quantifier": "every type, subtype and sequence of parameter additions; every text given to the reader", "why_tests_cant": "tests try a handful of types; escaping, trimming and splitting interact for every value text", "anchors": ["crates/sip-core/src/mime.rs:MimeType::new", "crates/sip-core/src/mime.rs:to_string_with_params", "crates/sip-core/src/mime.rs:parse_mime_type"]}
{"id": "C163", "title": "A MIME parameter is accepted exactly when it is well-formed and new", "statement": "A parameter is accepted iff its name is a token not yet used in any spelling, fewer than 20 are there, and the value is a token or a properly escaped quoted text of at most 256 bytes; afterwards every spelling of the name gives the unquoted value and all other names give what they gave; blanks round separators do not change what is read.", "quantifier": "every MIME type, name and value; every amount of white space round type, subtype, names and values", "why_tests_cant": "tests add a few parameters; acceptance must be exact for every text", "anchors": ["crates/sip-core/src/mime.rs:add_param", "crates/sip-core/src/mime.rs:normalize_param_value", "crates/sip-core/src/mime.rs:param"]}
{"id": "C164", "title": "Security agreement headers survive writing and reading", "statement": "Every Security-Client/Server/Verify entry that can be built has at most 20 parameters with distinct names, names without blanks and separators and values without control characters; 1 to 10 entries whose quotes are closed and whose unquoted parts hold no separators are read back exactly as written; whatever is read is within the limits, and if its quotes were closed it is read again unchanged.", "quantifier": "every list of entries and sequence of parameter settings; every text given to the reader", "why_tests_cant": "tests try a few headers; quoting, splitting and sorting interact for every parameter text", "anchors": ["crates/sip-core/src/security.rs: SecurityEntry::set_param, Display for SecurityEntry, parse_security_header, split_quoted, split_once_quoted"]}
{"id": "C165", "title": "The agreed security mechanism is the best one that both sides have", "statement": "A preference that is set is the one that is read; the best match is none iff no mechanism is in both lists, and otherwise the first of the server's entries with the highest combined preference; sorting by preference keeps the entries and the order among equals; verification asks for a listed mechanism.", "quantifier": "every pair of server and client lists, every entry and every preference", "why_tests_cant": "tests try two or three entries; the choice must be the best one for every list", "anchors": ["crates/sip-core/src/security.rs: SecurityServer::find_best_match, sorted_by_preference, SecurityVerify::matches, SecurityEntry::set_preference"]}
{"id": "C166", "title": "Event and subscription-state headers hold only what was checked", "statement": "A parameter is accepted iff its name is a token not yet used in any spelling, its value is missing or a token and fewer than 20 are there; afterwards every spelling of the name finds it and other names are untouched; everything that can be built is within the limits; a subscription state is one of three words in any spelling or another short token, and is read back as written.", "quantifier": "every sequence of constructor and parameter calls; every state text", "why_tests_cant": "tests try a few names and values; acceptance must be exact for every text and history", "anchors": ["crates/sip-core/src/event.rs: EventHeader, SubscriptionStateHeader::add_param, SubscriptionState::parse"]}
{"id": "C167", "title": "One-word headers accept exactly their grammar", "statement": "Entity tags, Refer-Sub, Subject, Priority and the SIP version are accepted exactly when they follow their grammar and limits; what is accepted is kept and read back as written; entity tags match iff they are equal; the four standard priorities are ranked without ties.", "quantifier": "every text", "why_tests_cant": "tests try a handful of texts; case, white space and limits must be right for every text", "anchors": ["crates/sip-core/src/sip_etag.rs: SipETagHeader, SipIfMatchHeader::matches_etag", "crates/sip-core/src/refer_sub.rs: ReferSubHeader::parse", "crates/sip-core/src/subject.rs: SubjectHeader::new", "crates/sip-core/src/priority.rs: PriorityValue::parse", "crates/sip-core/src/version.rs: SipVersion::parse"]}
{"id": "C168", "title": "A Date header is accepted when it looks like a date, and says what is past", "statement": "A text is accepted iff it has at most 128 bytes, no control characters and the words of an RFC 1123 date within their ranges; a date made from a time holds that time and its text; past and future are reported for every date whose time is known, and text and time agree.", "quantifier": "every text, every time and every current time", "why_tests_cant": "tests try a few dates; acceptance must be exact and the comparison right for every pair of times", "anchors": ["crates/sip-core/src/date.rs: DateHeader::new, is_valid_date_format, from_timestamp, is_past, is_future"]}
{"id": "C169", "title": "Watcher information survives writing and reading", "statement": "Every watcher information document built through the interface keeps its limits (state full or partial, at most 100 lists of at most 1000 watchers, bounded and control-free values, URIs that parse); written as XML and read back it is the same document, provided no identifier, display name or resource looks as if it held an attribute that is written behind it and no watcher address has white space at an end.", "quantifier": "every sequence of builder calls and every value", "why_tests_cant": "a value that happens to look like markup is one of infinitely many; tests use tidy names", "anchors": ["crates/sip-core/src/watcher_info.rs: WatcherinfoDocument::to_xml, parse_watcherinfo, extract_attribute, xml_escape, xml_unescape"]}
{"id": "C170", "title": "Watcher information that is accepted keeps the limits", "statement": "Whatever the XML text, a watcher information document that is read without error keeps every limit of the builders; status and event names are recognised in any case and nothing else is; no part of the document is dropped silently.", "quantifier": "every text", "why_tests_cant": "arbitrary text cannot be enumerated", "anchors": ["crates/sip-core/src/watcher_info.rs: parse_watcherinfo, parse_watcher_list, parse_watcher, WatcherStatus::parse, WatcherEvent::parse"]}
{"id": "C171", "title": "Resource-Priority texts mean one thing", "statement": "A Resource-Priority text is accepted exactly when it is at most 512 bytes long and its parts between commas are blank or a namespace, a full stop and a priority (each 1 to 64 bytes without white space and control characters), at most ten of them; the values are those of the parts in order. A header built through the interface keeps the limits and, written and read back, is the same header, provided no namespace or priority holds a separator and the text is not too long.", "quantifier": "every text and every sequence of builder calls", "why_tests_cant": "texts are unbounded in their shapes; tests try a handful", "anchors": ["crates/sip-core/src/resource_priority.rs: ResourcePriorityHeader::parse, ResourcePriorityValue::parse, Display", "crates/sip-parse/src/header_values.rs: parse_resource_priority"]}
{"id": "C172", "title": "what History-Info headers report", "statement": "A History-Info header is accepted exactly when it has one to fifty entries, each an address with at most twenty well-formed parameters; every part then gives one entry, in order, with its address (including any reason carried in the address) and all its parameters. A header built by the caller keeps the same limits, and looking up an index finds the first entry with it.", "quantifier": "every list of header values, every sequence of builder calls, every index", "why_tests_cant": "entries, parameters and values are unbounded combinations of text; a test sees only a few headers", "anchors": ["crates/sip-core/src/history_info.rs:HistoryInfoHeader", "crates/sip-parse/src/header_values.rs:parse_history_info"]}
{"id": "C173", "title": "what Geolocation headers report", "statement": "A Geolocation header that is accepted reports one to ten values: exactly the addresses of the header, in order, each with its parameters within the limits, and nothing is dropped without an error.", "quantifier": "every list of header values", "why_tests_cant": "values and parameters are unbounded combinations of text", "anchors": ["crates/sip-core/src/geolocation.rs:GeolocationHeader", "crates/sip-parse/src/header_values.rs:parse_geolocation_header"]}
{"id": "C174", "title": "asserted and preferred identities survive writing and reading", "statement": "Identities built through the API, written to a P-Asserted-Identity or P-Preferred-Identity header and read back, are the same identities in the same order, and neither a display name nor a parameter can add an identity or change one. A header that is read holds one to ten identities within the limits, and the SIP and tel identity it reports are the first of their kind.", "quantifier": "every list of identities the API can build and every header text", "why_tests_cant": "names, values and addresses are unbounded text, and which characters end an identity depends on all of it", "anchors": ["crates/sip-core/src/p_headers.rs:PIdentity", "crates/sip-core/src/p_headers.rs:PAssertedIdentityHeader", "crates/sip-core/src/p_headers.rs:PPreferredIdentityHeader"]}
{"id": "C175", "title": "access and visited network headers are read as written", "statement": "A P-Access-Network-Info header gives the access type and all its parameters with their values, quoted or not; what is read keeps the limits on lengths, counts and characters. A P-Visited-Network-ID header gives one to twenty network names within the limits.", "quantifier": "every header text, every access type and parameter set", "why_tests_cant": "types, values and their number are unbounded", "anchors": ["crates/sip-core/src/p_headers.rs:PAccessNetworkInfo", "crates/sip-core/src/p_headers.rs:PVisitedNetworkIdHeader"]}
{"id": "C176", "title": "message fragments tell the type and length of their body", "statement": "A message fragment never holds more than 64 KB of body, and a fragment with a body always has a Content-Type header and a Content-Length header that says the body's length, whatever calls were made on it. Written out and taken apart by the receiver, a fragment with a body gives back its start line, its headers and its body; writing fails only when the body is not text.", "quantifier": "every constructor and every sequence of calls on a fragment, every body", "why_tests_cant": "calls come in any order and number and may fail in between", "anchors": ["crates/sip-core/src/sipfrag.rs:SipFrag", "crates/sip-core/src/sipfrag.rs:validate_body_headers"]}
{"id": "C177", "title": "sharding keeps a call together", "statement": "Both ends and both directions of a dialog get the same sharding key; a request and the CANCEL or ACK for it go to the same worker; the server and the client side of a branch get different keys; a message is placed by its first Call-ID and only a message without one is not placed.", "quantifier": "every hash function, every branch, method, Call-ID and pair of tags, every number of workers", "why_tests_cant": "hashes of arbitrary text", "anchors": ["crates/sip-transaction/src/sharding.rs:shard_by_dialog_id", "crates/sip-transaction/src/sharding.rs:shard_by_transaction_key", "crates/sip-transaction/src/sharding.rs:shard_key_from_headers"]}
{"id": "C178", "title": "who referred the caller survives writing and reading", "statement": "A Referred-By header built through the API, written and read back, names the same referrer, the same Content-ID of a signature and the same parameters; no name, Content-ID or parameter can change another part. Reading keeps the limits and never panics.", "quantifier": "every header the API can build and every header text", "why_tests_cant": "names, values and quoting are unbounded text", "anchors": ["crates/sip-core/src/referred_by.rs:ReferredByHeader", "crates/sip-core/src/referred_by.rs:find_unquoted_angle_brackets"]}
{"id": "C179", "title": "Subscriptions hold what their messages say", "statement": "A subscription made from a SUBSCRIBE request and its response holds the request's Call-ID, From tag and Event, the response's To tag and Contact, the request's sequence number if it is from 1 to 2^31-1, and the expiry of the response, else (notifier only) of the request, else an hour; it is refused if any of these is missing. Later requests of the subscriber find it, NOTIFY requests of the other side too; sequence numbers go up by one.", "quantifier": "all requests, responses, identifiers, and any number of requests sent", "why_tests_cant": "the texts of the headers are unbounded, and the constructors must agree on both sides for every pair of messages", "anchors": ["crates/sip-dialog/src/lib.rs:Subscription::new_notifier", "crates/sip-dialog/src/lib.rs:Subscription::new_subscriber", "crates/sip-dialog/src/lib.rs:SubscriptionId::from_request", "crates/sip-dialog/src/lib.rs:SubscriptionId::new", "crates/sip-dialog/src/lib.rs:Subscription::next_local_cseq"]}
{"id": "C180", "title": "The store of subscriptions under concurrent use", "statement": "The store holds at most 10000 subscriptions, one for each identifier. A subscription that was inserted and is not terminated is found until somebody removes or replaces it, whatever other threads do; a cleanup removes exactly the terminated ones and says how many; lists hold each subscription once; by_event gives those of the package.", "quantifier": "all histories of insert, remove and cleanup steps of any number of threads, interleaved in any way", "why_tests_cant": "losing a subscription takes a particular interleaving of a cleanup with an insertion, and the bound takes ten thousand of them", "anchors": ["crates/sip-dialog/src/lib.rs:SubscriptionManager::insert", "crates/sip-dialog/src/lib.rs:SubscriptionManager::cleanup_terminated", "crates/sip-dialog/src/lib.rs:SubscriptionManager::by_event"]}
{"id": "C181", "title": "Path and Service-Route headers keep the route set", "statement": "Reading the Path or Service-Route headers of a message reports the addresses of all parts of all header values in order, parts being cut exactly at commas outside quotation marks; a part that is not an address, an unclosed quotation mark, more than fifty parts in a value or more than fifty routes in total make the reading fail and nothing else does. However a header is built it never has more than fifty routes, adding one appends it, and the routes count as loose exactly when each has the lr parameter. A written header reads back as the same routes.", "quantifier": "all header values, all lists of routes, all sequences of constructions", "why_tests_cant": "the route set comes from the network and is used to send later requests, so one lost, split or reordered entry sends calls elsewhere; tests show single headers without quoting, commas or limits", "anchors": ["crates/sip-core/src/service_route.rs: PathHeader, ServiceRouteHeader, MAX_ROUTES", "crates/sip-parse/src/header_values.rs: parse_path, parse_service_route, split_quoted_commas"]}
{"id": "C182", "title": "Registration event documents hold exactly what their limits allow", "statement": "A registration document holds at most 100 registrations and a registration at most 50 contacts; identifiers, addresses, display names and Call-IDs are accepted exactly when they are within 128, 512, 256 and 256 bytes, without ASCII control characters and (but for display names) not empty, and a weight exactly when it lies between 0 and 1; every builder sets its own field and leaves all others; what is added goes behind what is there; a contact event is read from exactly its own word.", "quantifier": "every text and number, every sequence of builder calls", "why_tests_cant": "the limits and the untouched fields must hold for every text and every order of calls", "anchors": ["crates/sip-core/src/reg_event.rs:RegInfo, Registration, Contact, ContactEvent, validate_uri, validate_id, validate_display_name, validate_call_id"]}
{"id": "C183", "title": "A registration event document tells its reader what was put in and nothing else", "statement": "Whatever markup the addresses, identifiers, names and Call-IDs hold, reading the written document as XML gives exactly the elements, attributes and texts that were put in, in order; no value can add, close or change an element; and documents that differ are written differently.", "quantifier": "every document that can be built", "why_tests_cant": "the claim ranges over all texts, in particular those made to look like markup", "anchors": ["crates/sip-core/src/reg_event.rs:Display for RegInfo, xml_escape"]}
{"id": "C184", "title": "ICE candidate lines", "statement": "A candidate line is read exactly when it has the seven fields, the type and pairs behind them, and as the candidate it says: transports without regard to case, types as they stand, the last related address and port counting and the other pairs kept in order. What is read is written and read back unchanged, adding a candidate appends it and clearing removes every candidate and nothing else. Any candidate an application builds survives being written and read.", "quantifier": "all line texts, all candidates, all attribute lists", "why_tests_cant": "The fields, their order and the pairs combine without bound, and candidates come from remote peers as free text.", "anchors": ["crates/sip-sdp/src/attrs.rs: parse_candidate_value, Candidate::to_attr_value, CandidateTransport, CandidateType", "crates/sip-sdp/src/attrs.rs: candidates, add_candidate, clear_candidates"]}
{"id": "C185", "title": "DTLS setup role of a media section", "statement": "A setup role that is set is the one read afterwards and the only one in the section, every other attribute stays, and exactly the four words of RFC 4145 name a role.", "quantifier": "all attribute lists, roles and words", "why_tests_cant": "Attribute lists may hold any number of earlier roles in any place.", "anchors": ["crates/sip-sdp/src/attrs.rs: Setup::as_token, Setup::from_token, setup, set_setup, set_value_attr_unique, parse_value_attr"]}
{"id": "C186", "title": "Fingerprint and ssrc lines", "statement": "A fingerprint line is read as the text before its first space and the text behind it without the white space around; an ssrc line as its number, the attribute name before the first colon and, if there is a colon, the value behind it. Other lines are not read.", "quantifier": "all line texts", "why_tests_cant": "Texts come from remote peers and have no bound.", "anchors": ["crates/sip-sdp/src/attrs.rs: parse_fingerprint_value, parse_ssrc_value"]}
{"id": "C187", "title": "SDP answers made from a media profile", "statement": "An answer made from a profile answers the sections of the offer one by one in their order, lists exactly the codecs that both sides know, keeps to the direction of the offer, names the address it is given, and is made for every offer that can be parsed.", "quantifier": "all offers, profiles, addresses and ports", "why_tests_cant": "Offers are remote input with any number of sections, formats and rtpmaps, and any of them may make a builder fail.", "anchors": ["crates/sip-sdp/src/profiles.rs: negotiate_answer, MediaProfileBuilder::build, MediaProfileBuilder::audio_only, MediaProfileBuilder::audio_video", "crates/sip-sdp/src/lib.rs: MediaDescription::add_format, add_rtpmap, add_attribute, with_direction", "crates/sip-uac/src/integrated.rs: late offer answer"]}
{"id": "C188", "title": "SDP offers from the built-in profiles", "statement": "A session description made from a built-in profile names the user and address it is given, offers PCMU, PCMA and telephone events on the audio port and, for the video profile, H264 and VP8 on the video port or on the second port behind the audio port, with both directions, the range of events and the feedback the profile lists, and it is made for every port.", "quantifier": "all profiles, users, session identifiers, addresses and ports", "why_tests_cant": "Every user text, address and port is a separate path through a chain of builders each of which may fail, and the port arithmetic fails only at the top of the range.", "anchors": ["crates/sip-sdp/src/profiles.rs: create_from_profile, create_audio_only, create_audio_video"]}
