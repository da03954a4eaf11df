# Formal model of siphon-rs in Coq: design

## Method

* The Rust source in `/repo` is read as text and transcribed, function by
  function, into total Gallina functions.  Each definition carries a comment
  naming the file and lines it models and any simplification.
* `&mut self` methods become functions returning the new value;  `Result` and
  `Option` stay data; a panic is an explicit result (`outcome`), never silently
  removed.
* Strings are lists of Unicode code points (`N`); `str::len` is the UTF-8
  byte length (`blen`), `str::trim` uses the full Unicode `White_Space` set.
  Wire data are lists of bytes (`N` below 256).
* Time is `N` (nanoseconds since an arbitrary origin); a clock reading is an
  argument of the operation that reads it.
* Hash functions, random choices, DNS answers and the network are arguments
  or closed section variables, so theorems hold for every such function.
* Concurrency (session timers, proxy contexts, registrar store, connection
  pools) is a small-step relation over atomic actions; theorems quantify over
  every schedule.
* Layout: `theories/<Area>.v` model, `<Area>Spec.v` the vocabulary of the
  statements, `<Area>Proofs.v` lemmas, `P_<Area>.v` the property theorems, each
  followed by `Print Assumptions` and a satisfiability `Example`.
* Where the full statement is false of the code, `..._refuted` proves a concrete
  witness and the strongest true part is proved beside it (`..._partial` where a
  hypothesis of the property had to be added); the finding is listed below.
* Theorems are tested against wrong programs: `seeded/LOG.jsonl` has one line
  per seeded bug, with the theorems that stopped proving and those that had to
  be tightened because they did not.

## Plan per property

| Ids | Area | Model | Statements | Proof |
|-----|------|-------|-----------|-------|
| C01-C08, C69, C76-C78 | transaction machines and timers | `Fsm.v` | `P_Fsm.v`, `P_FsmTimers.v` | invariants by induction on event lists |
| C09-C11, C70 | transaction manager | `TxManager.v` | `P_TxManager.v` | invariants; list induction for fail-over |
| C12-C15, C71, C72 | rate limiter | `RateLimit.v` | `P_RateLimit.v` | potential argument on arrivals; refinement to a per-key bucket |
| C16-C20, C73-C75 | digest authentication | `Auth.v` | `P_Auth.v` | invariants on accepted counts; equations over an abstract hash |
| C21-C27, C80, C81 | dialogs | `Dialog.v`, `Msg.v` | `P_Dialog.v` | case analysis, induction on message lists |
| C28-C30, C82 | reliable provisional responses | `Prack.v` | `P_Prack.v` | invariants, round trip |
| C31, C32, C83, C84 | session timers | `SessionTimer.v` | `P_SessionTimer.v` | arithmetic; invariants over schedules |
| C33-C38, C85-C92, C99 | registrar, addresses of record, tel and other URIs | `Registrar.v`, `AnyUri.v` | `P_Registrar.v` | refinement to a map of bindings; round trips |
| C39-C41, C48, C93, C94 | stateful proxy | `ProxyFork.v` | `P_ProxyFork.v` | invariants over sequential and concurrent histories |
| C42-C47, C95-C98 | proxy helpers | `ProxyCore.v` | `P_ProxyCore.v` | list reasoning |
| C49-C52, C100 | message parser and serialiser | `Message.v` | `P_Message.v` | round-trip lemmas |
| C53, C57 | header collections, methods | `Headers.v`, `Method.v` | `P_Headers.v` | invariants over API histories |
| C54, C55, C101 | Via, token lists, response routing | `Via.v` | `P_Via.v` | round-trip lemmas |
| C56, C79 | SIP URIs | `Uri.v` | `P_Uri.v` | round-trip lemmas, invariants of the builder |
| C58-C60, C102, C103 | framing, transport choice | `Framing.v` | `P_Framing.v` | induction on segmentations |
| C61, C62, C104-C106 | connection pools | `Pool.v`, `PoolLock.v` | `P_Pool.v`, `P_PoolLock.v` | small-step invariants |
| C63-C65, C107 | SDP negotiation | `Sdp.v` | `P_Sdp.v` | list induction |
| C108, C109 | SDP reader and writer | `SdpText.v` | `P_SdpText.v` | parser combinator lemmas, round trip |
| C66, C110-C112 | target resolution | `Dns.v` | `P_Dns.v` | permutation reasoning, counting of draws |
| C67, C113 | DHCP options, ENUM | `Dhcp.v` | `P_Dhcp.v` | induction on the wire form |
| C114-C118 | signed caller identity | `Json.v`, `Identity.v` | `P_Identity.v` | base64url and JSON grammars related to the readers by induction; round trip of signing |
| C119-C123 | requests a client builds | `Uac.v` | `P_Uac.v` | case analysis over all builders, induction over call histories |
| C124-C126 | answering a challenge | `Uac.v` | `P_UacAuth.v` | reader lemmas over the challenge grammar, composition with C17 |
| C127-C134 | what the integrated client sends | `UacSend.v` | `P_UacSend.v` | list reasoning; invariant over interleavings of the shared dialog; induction over timer ticks |
| C135, C136 | responses of a user agent server | `Uas.v` | `P_Uas.v` | closed form of the header list; case analysis over all response kinds |
| C137-C139 | calls between client and server, requests inside them, authentication | `Uas.v`, `UasServe.v` | `P_UasCall.v` | composition of the client's builders (C119-C122), dialog construction and the server's readers |
| C140 | session timers of both ends | `Uas.v` | `P_UasTimer.v` | composition with C20's negotiation |
| C141 | reliable responses and PRACK | `Uas.v` | `P_UasReliable.v` | invariants of the PRACK table, induction over series of responses |
| C142, C143 | dispatching and completing responses | `UasServe.v` | `P_UasServe.v` | case analysis over methods; frame lemmas on header lists |
| C144 | subscriptions of the server | `Uas.v` | `P_UasServe.v` | induction over series of notifications |
| C145 | Replaces and attended transfers | `Replaces.v`, `Uac.v` | `P_Replaces.v` | reading lemmas on split/trim, percent-decoding inverse |
| C146 | Privacy | `Privacy.v` | `P_Privacy.v` | scanner induction over addresses, frame lemmas on header lists |
| C147 | Reason | `Reason.v`, `ReasonSpec.v` | `P_Reason.v`, `AtomFacts.v` | loop induction over parameters, sorted-map facts; ready-made tables by finite case |
| C148 | session descriptions of sip-core | `SdpCore.v`, `SdpCoreSpec.v` | `P_SdpCore.v`, `SdpCoreProofs.v`, `SdpCoreRead.v`, `SdpCoreSound.v`, `SdpCoreWrite.v` | one lemma per kind of line, induction over the line loops, soundness as a loop invariant |
| C149 | answers to offers | `OfferAnswer.v`, `OfferSpec.v` | `P_OfferAnswer.v`, `OfferProofs.v`, `OfferFacts.v` | invariant of the map of codecs, induction over the streams; the order of a `HashMap` is an argument |
| C150 | hold and resume | `OfferAnswer.v`, `OfferSpec.v` | `P_OfferHold.v` | case analysis on directions, composed with C149 and C148 |
| C151 | preconditions | `OfferAnswer.v`, `OfferSpec.v` | `P_OfferHold.v` | induction over the attributes |
| C152 | capabilities | `Prefs.v`, `PrefsSpec.v` | `P_Prefs.v` | round trip per value, then over the sorted map |
| C153 | caller preferences | `Prefs.v`, `PrefsSpec.v` | `P_Prefs.v` | induction over preferences and contacts; stable insertion sort |
| C154 | Request-Disposition | `Prefs.v`, `PrefsSpec.v` | `P_Prefs.v` | induction over the words |
| C155 | CPIM round trip | `Cpim.v`, `CpimSpec.v` | `P_Cpim.v`, `P_CpimEdit.v` | sections and lines found again by induction; the sorted map rebuilt |
| C156 | CPIM limits | `Cpim.v`, `CpimSpec.v` | `P_Cpim.v` | invariant over building steps and over the parser |
| C157 | CPIM values and edits | `Cpim.v`, `CpimSpec.v` | `P_CpimEdit.v` | induction over the value; map lemmas |
| C158 | message summaries | `Mwi.v`, `MwiSpec.v` | `P_Mwi.v` | induction over the classes and message headers; the reader as a fold over lines |
| C159 | what a summary says | `Mwi.v`, `MwiSpec.v` | `P_Mwi.v` | invariant of the fold over lines (last line of a name) |
| C160 | presence documents | `Pidf.v`, `PidfSpec.v` | `PidfProofs.v`, `P_Pidf.v` | induction over tuples and notes; no tag begins in an escaped text |
| C161 | accepted presence documents | `Pidf.v`, `PidfSpec.v` | `P_Pidf.v` | invariant of the reading loops; witnesses |
| C162 | MIME types | `Mime.v`, `MimeSpec.v` | `P_Mime.v` | invariant of the building calls; induction over the parameters, with the first semicolon as cut |
| C163 | MIME parameters | `Mime.v`, `MimeSpec.v` | `P_Mime.v` | characterisation of the value check by an escape relation |
| C164 | security agreement headers | `SecAgree.v`, `SecAgreeSpec.v` | `P_SecAgree.v` | invariant of the building calls; texts whose quotes are closed are cut only where they were joined |
| C165 | best security mechanism | `SecAgree.v`, `SecAgreeSpec.v` | `P_SecAgree.v` | induction over the server's list with "best so far"; insertion sort as the stable sort |
| C166 | event headers | `Words.v`, `WordsSpec.v` | `P_Words.v` | characterisation of the checks by token predicates; invariant of the building calls |
| C167 | one-word headers | `Words.v`, `WordsSpec.v` | `P_Words.v` | each reader is characterised exactly by its grammar |
| C168 | Date header | `DateHdr.v`, `DateSpec.v` | `P_DateHdr.v` | exact characterisation of the accepted texts; httpdate as an argument |
| C169 | watcher information round trip | `Winfo.v`, `WinfoSpec.v` | `P_Winfo.v` | induction over lists and watchers with searches that pass over the text between tags; scan lemma for attribute values without decoys |
| C170 | accepted watcher information | `Winfo.v`, `WinfoSpec.v` | `P_Winfo.v` | invariant of the reading loops |
| C171 | Resource-Priority | `ResPrio.v`, `ResPrioSpec.v` | `P_ResPrio.v` | induction over the parts; exact characterisation of acceptance |
| C172 | History-Info | `History.v`, `HistorySpec.v` | `P_History.v` | iff with the quoted-comma parts and the name-addr reader |
| C173 | Geolocation | `History.v`, `HistorySpec.v` | `P_History.v` | filter of the parts; induction over the sorted parameters |
| C174 | asserted identities | `PIdent.v`, `PIdentSpec.v` | `P_PIdent.v` | write-read round trip by induction over identities and parameters; limits as an invariant of the reader |
| C175 | access and visited networks | `PIdent.v`, `PIdentSpec.v` | `P_PIdent.v` | induction over the sorted parameters; limits as an invariant |
| C176 | message fragments | `SipFrag.v`, `SipFragSpec.v` | `P_SipFrag.v` | invariant over calls; write-read round trip through the receiver's `split_head_body` |
| C177 | sharding | `Sharding.v` (hash is a parameter) | `P_Sharding.v` | bitwise reasoning on 64-bit keys |
| C178 | Referred-By | `Referred.v`, `ReferredSpec.v` | `P_Referred.v` | parity of quotation marks (no panic); write-read round trip by induction over sorted parameters; limits as an invariant |
| C179 | what a subscription records | `Subs.v`, `SubsSpec.v` | `P_Subs.v` | both directions of acceptance, induction over the requests sent |
| C180 | store of subscriptions | `Subs.v`, `SubsSpec.v` | `P_SubStore.v` | invariant over all interleavings |
| C181 | Path and Service-Route | `PathRoute.v`, `PathRouteSpec.v` | `P_PathRoute.v` | the scanner is shown to cut a text exactly as an inductive grammar of quoted pieces says; readers by induction over values; round trip through scanner, brackets and parameters |
| C182 | registration event documents: limits | `RegEvent.v`, `RegEventSpec.v` | `P_RegEvent.v` | induction over builder calls |
| C183 | registration event documents: reading | `RegEvent.v`, `RegEventSpec.v` | `P_RegEvent.v` | XML reading as a relation proved functional; continuation lemmas per element |
| C184 | ICE candidates | `Ice.v`, `IceSpec.v` | `P_Ice.v` | words of a line by induction, pairs as an inductive relation equivalent to the reader, round trip |
| C185 | DTLS setup | `Ice.v`, `IceSpec.v` | `P_Ice.v` | list membership over filter and append |
| C186 | fingerprint and ssrc lines | `Ice.v`, `IceSpec.v` | `P_Ice.v` | splitting and trimming characterised |
| C187 | answers from a profile | `Profile.v`, `ProfileSpec.v` | `P_Profile.v` | folds over sections turned into flat maps, builders step by step, counter-examples |
| C188 | offers from the built-in profiles | `Profile.v` | `P_ProfileText.v` | the builder chain computed for a port left open, then lookups by number; exact panic condition |
| C68 | capture Call-ID | `Hep.v` | `P_Hep.v` | list reasoning over `Message.v` |

Shared files: `Base.v`, `BaseFacts.v` (Rust `str`/slice functions and their laws),
`Text.v`, `TextFacts.v`, `Utf8Facts.v` (UTF-8, percent decoding, sorted maps, IP
literals), `NumFacts.v` (decimal numbers).

## Trusted base

* The Coq 8.16.1 kernel, including its virtual machine (`vm_compute` is used for
  concrete witnesses; `coqchk` re-checks them without it).
* Axioms: none.  `Print Assumptions` says "Closed under the global context" for
  every theorem named in `MANIFEST.json`.  The modules loaded (through `Lia` and its
  `zify` extensions) bring the standard library's `Coq.ssr.ssrunder` module with
  them, whose seven opaque names (`Under_rel.*`) `coqchk` lists as library axioms; no
  theorem here depends on them.
* Only the standard library is imported (`NArith`, `ZArith`, `List`, `String`,
  `Lia`, `Permutation`, `Sorting`).
* The correspondence between the Gallina definitions and the Rust text, which
  is by reading, with citations, and the definitions of `Base.v` and `Text.v`, which
  stand for the Rust standard library and for the crates `percent_encoding`,
  `nom` 7 (in `SdpText.v`), `base64` and `serde_json` (in `Json.v`) and `tokio`/`dashmap` (as
  atomic steps).

### Modelled

| Crate | Modelled | Not modelled |
|-------|----------|--------------|
| sip-core | `headers.rs`, `method.rs`, `uri.rs`, `tel_uri.rs`, `via.rs`, `token_list.rs`, `name_addr.rs`, `auth.rs`, `rseq.rs`, `max_forwards.rs`, `mime.rs`, `security.rs`, `event.rs`, `sip_etag.rs`, `refer_sub.rs`, `subject.rs`, `priority.rs`, `version.rs`, `date.rs`, `watcher_info.rs`, `resource_priority.rs`, `history_info.rs`, `geolocation.rs` (Geolocation header; not the error and routing headers), `p_headers.rs`, `sipfrag.rs`, `sharding.rs`, `referred_by.rs`, `service_route.rs`, `reg_event.rs`, `msg.rs` (constructors), `route.rs` (the parts the proxy uses), `replaces.rs`, `privacy.rs`, `reason.rs`, `sdp.rs` (types, `SdpSession::parse`, `Display`, `RtpMap`, `Fmtp`, `Direction`, preconditions), `sdp_offer_answer.rs`, `capabilities.rs` and `caller_preferences.rs` (f64 scores as rationals, numbers read and written by an argument), `cpim.rs` (without the unchecked constructors; which error is not modelled), `message_waiting.rs`, `presence.rs` (positions counted in characters) | the typed header modules not named here, among them `watcher_info.rs`; of `sdp.rs` the builders and the typed views of single attributes |
| sip-parse | `lib.rs` (all of parsing and serialising), `header_values.rs` (Authorization, name-addr, Contact) | the remaining header value parsers |
| sip-transaction | `fsm.rs`, `timers.rs`, `manager.rs` (operations, fail-over, timers) | metrics, storage traits, sharding |
| sip-dialog | `lib.rs` (dialogs, manager, RSeq counter, subscriptions and their store), `prack_validator.rs`, `session_timer_manager.rs` | storage traits, metrics |
| sip-auth | nonce manager, digest computation and verification, authenticator, credential store, rate limiting hook | the hash functions, random generators, the asynchronous authenticator wrappers |
| sip-ratelimit | all | metrics, log throttle |
| sip-registrar | address-of-record normalisation, in-memory store (sequential and concurrent), REGISTER handling, responses | asynchronous and delegating wrappers, GRUU |
| sip-proxy | all of `stateful.rs`, `lib.rs`, `cancel_ack.rs`, `location.rs`, `service.rs` | logging |
| sip-transport | stream framing, transport policy, connection pools (TCP, TLS, WebSocket) | sockets, TLS handshakes, WebSocket frames, UDP receive loop, metrics |
| sip-sdp | `lib.rs`, `builder.rs`, `negotiate.rs`, `parse.rs`, `serialize.rs`, `attrs.rs`, `profiles.rs` (builder and answers) | `create_from_profile` |
| sip-dns | `lib.rs` resolver, DHCP options 66, 120, 150, `enum_lookup.rs` | the DNS client itself, DHCP providers, the hybrid resolvers |
| sip-uas | `lib.rs` (responses, INVITE with and without session timer, in-dialog requests, reliable responses, SUBSCRIBE and NOTIFY), `integrated.rs` (dispatching, default handlers, filling in headers) | the application's handler, presence and conference helpers, sending, metrics |
| sip-hep | `headers.rs` | HEP encoding (an external crate), the emitter |
| sip-identity | `passport.rs`, `header.rs`, `sign.rs`, `verify.rs`, the signature conversion and order of checks of `chain.rs`; `base64` and `serde_json` as far as these use them | ECDSA, certificate parsing and path validation (arguments of the model: `ring`, `webpki`), certificate fetching; numbers with a fraction or exponent are only recognised, duplicate members of unknown names are ignored |
| sip-uac | every request builder of lib.rs (INVITE, re-INVITE, UPDATE, BYE, CANCEL, ACK, PRACK, REGISTER, SUBSCRIBE, NOTIFY, PUBLISH, MESSAGE, INFO, REFER, OPTIONS), challenge reading and answering, Service-Route; in integrated.rs the in-dialog preparation, ACK, CANCEL, retry counting, session timer and shared numbering, Via and Contact filling | sending and waiting, DNS use, outbound (RFC 5626) parameters, event packages, auto-PRACK |
| sip-observe, sip-testkit, bins/siphond | `siphond`'s use of the transaction manager and of the transport policy, as far as C10 and C60 need them | the rest |

The granularity of atomic steps is stated at the head of each model: public
calls of the transaction manager and the rate limiter are atomic; the proxy
context, registrar store, session timer manager and connection pools are split at
every access to shared state.

## Findings

What follows is proved of the model by the theorem named; each is a behaviour of the
code at the pinned commit that contradicts the property, the RFC it comes from or the
function's own documentation.

Transactions
* Timer B ends an INVITE client transaction that is already ringing (`C04_refuted`).
* After the ACK a server accepts another final response and goes back to Completed with
  Timer I still armed (`C07_refuted`).
* `siphond` dispatches retransmitted requests again (`C10` refuted part).
* Doubling T1/T2 near `Duration::MAX` panics (bound in C01).

Rate limiter
* Idle clean-up forgets a key before it has refilled, so the shipped REGISTER preset allows
  more than its limit (`C13`, `C14` refuted parts); the announced wait is rounded down (`C72`).

Digest authentication
* A maximum nonce count below 10 is not respected (`C18`); a wrong digest spends a nonce
  count (`C19`); nonce count 0 skips the age check (`C74`); the request hash
  `method:uri:body` is ambiguous (`C16`).

URIs, headers, messages
* `%` in a user part is decoded twice, parameters can be injected with `with_param`, an
  IPv6 host without brackets builds an unparseable URI (`C56` refuted parts).
* Responses with an empty reason, or one with blanks at its ends, do not round trip
  (`C50_*_refuted`); nor do Request-URIs with blanks and full header collections
  (`C49_*_refuted`).
* Missing CSeq accepted, CSeq method compared without case, `+2` accepted as a
  Content-Length by the strict parser (`C52_cseq_refuted`, `C52_plus`).
* `;` in a Via parameter value injects parameters; the empty token list prints as text that
  does not parse (`C54_inject_refuted`, `C55_empty_refuted`).
* With two Vias on one line, `received` is attached to the wrong one, and a `received`
  written by the client is kept (`C101_*_refuted`).

Dialogs
* Local CSeq goes past 2^31-1 and repeats at 2^32-1 (`C26`); an ACK is refused after an
  accepted PRACK or UPDATE (`C27`); tag extraction panics on non-ASCII text and finds tags in
  quoted display names (`C81`, `C80`); the RSeq counter passes 2^31-1 (`C82`).
* The PRACK validator's bookkeeping is not bounded (`C29_total_refuted`); extension methods
  do not read back in its RAck (`C30_validator_refuted`).
* A session timer that is restarted late can be removed by its predecessor (`C32_refuted`);
  the refresher parameter is read case-sensitively (`C83_case_refuted`).

Registrar
* The total binding limit can be passed by concurrent REGISTERs (`C33_race_refuted`);
  a REGISTER with several contacts is not atomic (`C36`), and a response that cannot be
  built leaves the store changed (`C36_failure_refuted`); a wildcard ignores CSeq
  (`C35_wildcard_refuted`); names are compared without case and the proxy mode reads the
  wrong header (`C37_*_refuted`); IPv6 hosts lose their brackets (`C38`, `C88`); only the
  first Via line is copied to responses, and `; tag=` gets a second tag (`C99_*_refuted`).

Proxy
* A 6xx, or a 2xx followed by another branch's failure, is forwarded twice; a late 1xx or a
  repeated final completes the context early (`C39`-`C41` refuted parts); concurrent finals
  can forward a worse response; check and insertion of contexts are separate (`C48`).
* No CANCELs after a 6xx, upstream Vias kept in CANCELs, second 2xx cancels again
  (`C95_*_refuted`).
* Loop detection never fires for `host:port` and IPv6 proxies, nor when the target is changed
  before the Via is added (`C42_*_refuted`).
* Record-Route is appended instead of prepended (`C46_refuted`); joined Via lines are removed
  whole (`C45_joined_refuted`); strict-route recovery cuts URIs containing `>` (`C44_refuted`);
  a loose route overwrites the Request-URI of an ACK (`C97_refuted`).
* Helpers panic on non-ASCII Via text and on requests with 200 headers
  (`C96_*_refuted`); forking to 51-100 targets fails half-way (`C98_parallel_refuted`).

Transports
* Frames completed in the same read as a later error are lost (`C58_lost_refuted`), and header
  blocks of 65534-65536 bytes depend on the segmentation (`C58_boundary_refuted`).
* `siphond` sends over-long messages by UDP when there is no stream (`C60_daemon_refuted`).
* A pool entry can be removed by the supervisor of an earlier connection (`C62_refuted`);
  two first sends to a peer lose a payload reported as sent (`C104_lost_refuted`); the map's
  lock is held across a wait, so every runtime thread can block (`C106_refuted`).

SDP
* Lines offered with port 0 are accepted and block later lines (`C63_disabled_refuted`);
  payload types 35-95 are matched by number (`C64_static_refuted`); matching one-way
  directions refuse the whole session and session-level directions are ignored
  (`C65_*_refuted`); format parameters are looked up under the offerer's number
  (`C107_refuted`).
* Protocols such as `RTP/AVPF` make a description unreadable (`C109_prefix_refuted`); `b=`
  without a colon swallows the following lines (`C108_swallow_refuted`); builders allow
  injected lines and names that do not read back (`C108_*_refuted`).

DNS, DHCP, ENUM, captures
* NAPTR replacements are used as hosts of SRV queries (`C66_naptr_refuted`); more than 100
  records are an error (`C66_many_refuted`); zero-weight records are never first beside
  weighted ones (`C110_zero_refuted`); the certificate of an SRV target is checked against the
  name DNS supplied (`C111_refuted`); `transport=tls` uses port 5060 and secure WebSocket
  becomes TLS (`C112_*_refuted`).
* ENUM back-references are not substituted and non-terminal records may be chosen
  (`C113_*_refuted`); tel URIs built with separators have no ENUM domain (`C67_tel_refuted`).
* A blank before the colon hides a Call-ID from captures, and a line feed in another header
  replaces it (`C68_*_refuted`).

Caller identity
* A certificate address with a semicolon, or one that takes the value over 8192 bytes, makes
  an Identity header of our own that our reader refuses (`C114_header_refuted`,
  `C114_length_refuted`).
* The header's `alg`, `ppt` and `info` may contradict the token (`C117_consistent_refuted`).
* A token without type, extension, attestation, numbers, time or identifier is read and
  verifies (`C118_required_refuted`).
* Extra headers given to `create_message_with_headers` can contradict the body: a second
  Content-Length is written (`C119_extra_refuted`).
* re-INVITE, UPDATE, INFO and REFER name the configured identity in From, not the one the
  dialog was made with (`C120_from_refuted`).
* The builders panic when a text they are given contains a line break
  (`C121_no_panic_refuted`).
* The display name is written without escaping in requests inside a dialog, so it can replace
  the address that is read (`C122_inside_refuted`).
* The 101st registrar is not remembered: its Call-ID and numbers start afresh each time
  (`C123_many_refuted`). A challenged REGISTER's retry uses the number that the next REGISTER
  uses again (`C123_answered_refuted`).
* A request challenged twice carries both sets of credentials, and the server reads the old
  ones (`C125_second_refuted`).
* A challenge with a lone double quote as a value makes the client panic
  (`C126_panic_refuted`). Parameter names are compared with case (`C126_case_refuted`), the
  word "digest" is accepted anywhere in a challenge of another scheme (`C126_scheme_refuted`),
  and a Digest challenge after one of another scheme is not found (`C126_several_refuted`).
* The ACK of a 2xx does not repeat the INVITE's credentials (`C128_credentials_refuted`).
* A challenged session refresh and a BYE use CSeq numbers that are then used again
  (`C130_challenged_refuted`, `C130_bye_refuted`).
* `max_auth_retries = 0` still repeats a challenged non-INVITE request once
  (`C132_zero_refuted`).
* Filling in the Contact drops its URI parameters, such as `transport=tcp`
  (`C134_contact_refuted`).
* Every response to a request with 200 Via lines panics, and every one but a 100 to a request
  with a To of more than 8181 bytes (`C135_vias_refuted`, `C135_to_refuted`).
* The To of a response gets no tag if ";tag=" occurs in the URI or the display name, and a
  second one if the tag is written with a blank or in upper case (`C136_hidden_refuted`,
  `C136_second_refuted`). Each response draws its own tag, so 180 and 200 belong to different
  dialogs (`C136_two_tags_refuted`).
* With 10000 dialogs stored, calls are accepted and then unknown (`C137_full_refuted`). A
  display name with "<" makes the INVITE unacceptable (`C137_display_refuted`).
* The CSeq of requests inside a dialog is not looked at (`C138_replay_refuted`). A From with a
  non-ASCII letter at the wrong place panics (`C138_panic_refuted`).
* CANCEL is challenged (`C139_cancel_refuted`).
* A Session-Expires below 90 is ignored instead of refused (`C140_short_refuted`); a minimum
  with a fraction is cut in the 422, so that the repeated call is refused again
  (`C140_loop_refuted`); a policy below 90 s is promised and ignored (`C140_unread_refuted`).
* A 100 can be sent reliably (`C141_trying_refuted`); RAck values that cannot be read are
  answered 481 (`C141_status_refuted`); the table of pending responses confuses dialogs whose
  tags contain colons (`C141_key_refuted`). A Call-ID containing "Invalid RAck" turns a 481
  into a 400 (by reading).
* `on_options` of the application is never called (`C142_options_refuted`). A CANCEL with a
  CSeq of one 8190-byte word crashes the dispatcher (`C142_cancel_refuted`).
* IPv6 addresses are written into Contact without brackets (`C143_v6_refuted`); responses that
  take over 199 headers panic when completed (`C143_full_refuted`).
* Notifications are addressed to the server's own contact (`C144_target_refuted`).
* The default `on_bye` answers 200 and leaves the dialog stored (by reading).
* A Replaces header built with a semicolon in the Call-ID or a tag is written as another
  header (`C145_roundtrip_refuted`). The Replaces of a transfer to a URI that already has
  headers becomes part of the last of those (`C145_headers_refuted`).
* Privacy: the second address of a Contact header stays readable (`C146_contacts_refuted`); a
  From or Contact of more than 1024 bytes makes enforcement fail with the asserted identity
  left in place (`C146_failed_refuted`); a value that is not known, such as `history`, cancels
  the whole request for privacy, and only the first Privacy header is read
  (`C146_ignored_refuted`).
* Reason: the printer does not escape and the parser splits at semicolons inside quotes, so a
  text with a semicolon is sent as two parameters (`C147_semicolon_refuted`), a backslash is lost
  (`C147_backslash_refuted`) and a well-formed quoted text with a semicolon from a peer is
  misread (`C147_quoted_refuted`).
* Session descriptions: the zones of several z= lines are not counted together, so a text that
  was read can be written as one that is refused (`C148_zones_refuted`); all r= lines are written
  behind all t= lines, so repeat times move to the last time (`C148_repeats_refuted`). Lines are
  written with LF, although RFC 4566 asks for CRLF (by reading).
* Answers: common codecs come in the order of a hash map, so the preference of the offer is lost
  and differs from run to run (`C149_preference_refuted`); formats with an rtpmap line that the m=
  line does not list are answered (`C149_listed_refuted`); a stream offered with port 0 is answered
  with a port (`C149_disabled_refuted`); the direction of the session is ignored
  (`C149_session_direction_refuted`, `C150_session_refuted`); a base port of 65534 or 65535
  overflows (`C149_port_refuted`); IPv6 is announced as IP4, and a user name with a blank makes an
  answer that cannot be read (`C149_wire_refuted`).
* Hold and resume turn sendonly into sendrecv and inactive into recvonly
  (`C150_restore_refuted`). Of two curr lines about the same status only the first counts
  (`C151_met_refuted`).
* Capabilities: an empty list comes back as true, a token that reads as a number as a number, and a
  token `inf` or `nan` makes the whole Contact unreadable (`C152_roundtrip_refuted`). Values written
  in quotes, as RFC 3840 does, match no token, and no text is read as false
  (`C152_quoted_refuted`). A contact that told no features is scored 0 or dropped, although the
  documentation says it is immune (`C153_immune_refuted`). The q value of an Accept-Contact is
  never used (by reading).
* CPIM: parameters are written behind the colon and looked for before it, so that no message with a
  parameter is read back: the parameter becomes part of the value (`C155_params_refuted`). A message
  without headers is not read back, and with a blank line in its body it is read as another message
  (`C155_headerless_refuted`). Bodies that are not UTF-8 are lost (`C155_body_refuted`); in texts with
  LF line ends the blank lines of a body become CRLF (`C155_lines_refuted`). With 20 content headers
  none can be replaced (`C157_replace_refuted`). `\u` escapes accept a plus sign (by reading).
* Message summaries: the reader takes a blank line as the end of a message header, but none is
  written, so that several message headers are read as one and the earlier values of a field are
  lost (`C158_heads_refuted`). A message header with nothing set is lost (`C158_nothing_refuted`), and
  a summary within all limits can be too long to be read (`C158_size_refuted`). The totals add 32-bit
  numbers from the network without a check: two counts of 2^32-1 make every total overflow
  (`C159_totals_refuted`).
* Presence documents: the reader looks for `<contact>` and `<note>` literally, so that a priority or a
  language on them, as in the example of RFC 3863, makes them disappear (`C161_attributes_refuted`);
  elements in comments are read (`C161_comment_refuted`) and numeric character references are not
  (`C161_reference_refuted`). A document within all limits can be longer than the reader takes, since
  the limits count the texts before they are escaped (`C160_size_refuted`).
* MIME types: a quoted parameter value may hold a semicolon when it is added or set by hand, but the
  reader cuts the text at every semicolon before it looks at quotes, so that the written type is
  refused (`C162_semicolon_refuted`); it is never read as something else (`C162_roundtrip`).
* Security agreement: a parameter value may hold commas and semicolons and is written without quotes,
  so that a value such as `MD5, tls` adds the mechanism `tls` to what is sent
  (`C164_values_refuted`). A header with an open quote is accepted; since the parameters are sorted,
  the quote swallows other parameters when the header is written again (`C164_reread_refuted`).
  Setting a preference does not help on an entry that was read with `Q=` (`C165_spelling_refuted`),
  a parameter of a full entry cannot be replaced (`C165_full_refuted`), and the second entry of a client for the
  same mechanism is ignored even if it is the better one (`C165_twice_refuted`). `SecurityVerify`
  compares only mechanisms, not parameters (`C165_verify`).
* Dates: the check of a Date header ignores everything behind the sixth word, allows several commas
  and knows no calendar (`C168_calendar_refuted`). `is_past` and `is_future` never answer
  `Some(false)`: of a future date `is_past` says nothing, as if the time were unknown
  (`C168_no_refuted`). `from_timestamp` keeps a fraction of a second that the text does not have,
  so that the two are not in step as the comment claims (`C168_seconds_refuted`).
* Watcher information (C169, C170): the reader looks for an attribute name behind any white space of the tag, even inside a quoted value. A watcher whose identifier is `a display-name=` is read back with the display name ` status=`, and one whose identifier is `a status=b` makes the whole document unreadable. White space at the ends of a watcher's URI, which `Uri::parse` accepts, is lost. An `expiration` or `duration-subscribed` that is no number is ignored without an error.
* Resource-Priority (C171): namespaces and priorities are only checked for white space and control characters, so `a.b` with priority `c` is read back as `a` with priority `b.c`, a comma makes two values of one, and four values of 64-byte words, well within the limit of ten, are written as a text that the reader refuses as too large.
* History-Info (C172): headers inside the address are not kept by the name-addr reader, so
  the `Reason` that RFC 7044 puts there is lost (`C172_reason_refuted`).
* Geolocation (C173): a value that is no address and a parameter whose value is no token
  (such as `inserted-by="c@d"`) are dropped without an error (`C173_dropped_refuted`);
  History-Info rejects the whole header for the same parameter.
* PRACK (C141): whether a refused PRACK is answered with 400 or 481 is decided by words in
  the text of the error.  `C141_verdict` gives the status for every readable RAck; for a
  dialog without pending responses it needs a dialog key without a space, because the key
  is part of the text (a Call-ID `a does not match b` turns the 481 into a 400).
* Asserted identities (C174): a display name with a quotation mark is accepted by the builder and
  written unescaped, so whoever picks the name can put another identity in front of the asserted
  one (`C174_injected_refuted`).
* Access network (C175): a semicolon inside a quoted value ends the parameter, so a legal header
  is refused or one parameter is read as two (`C175_quoted_refuted`).
* Message fragments (C176): `headers_mut` can remove or change the Content-Length of a fragment
  that has a body (`C176_described_refuted`); all other calls keep it right.
* Sharding (C177): the method is mixed into the upper half of the key only, so with a number of
  workers that is no power of two a CANCEL may go to another worker than its INVITE
  (`C177_cancel_refuted`).
* Referred-By (C178): a Content-ID with a semicolon, a parameter named `cid` and a display name
  with a quotation mark are accepted and written unescaped, so a reader sees another Content-ID,
  a signature reference that was never set, or another referrer (`C178_injected_refuted`); with
  twenty parameters a Content-ID after them is refused, before them accepted
  (`C178_order_refuted`).
* Subscriptions (C179): when only the SUBSCRIBE request names an expiry, the notifier
  keeps that one and the subscriber an hour (`C179_expiry_refuted`).
* Subscriptions (C179): `SubscriptionId::from_request` is documented for NOTIFY too, but
  the tags of a NOTIFY are exchanged, so it never gives the identifier of the
  subscriber's subscription (`C179_notify_refuted`).
* Subscriptions (C179): `SubscriptionId::new` panics on an event whose parameter has a
  character over byte 3, such as "presence;\u00e9\u00e9" (`C179_id_refuted`).
* Store of subscriptions (C180): `cleanup_terminated` collects identifiers first and
  removes them later, so a subscription renewed in between is removed although it is
  active (`C180_kept_refuted`).
* Store of subscriptions (C180): `by_event("presence")` misses subscriptions whose Event
  header has parameters (`C180_package_refuted`); a full store refuses to update a
  subscription it holds (`C180_update_refuted`).
* Path and Service-Route (C181): a URI whose user part holds a comma, as RFC 3261 allows, is written between angle brackets but cut in two when it is read, because the scanner knows quotation marks only (`C181_comma_refuted`). A display name is written without escaping, so a name with a quotation mark in it can add a route of its own (`C181_quote_refuted`). URI headers are dropped by the reader (`C181_headers_refuted`).
* Registration event documents (C182, C183): identifiers of registrations and contacts need not differ although RFC 3680 asks for that, and characters that XML 1.0 excludes (U+FFFE, U+FFFF) are accepted and written as they are, so the document is not well-formed.
* CPIM (C155): a header parameter without a value is dropped without notice when a message is read (`C155_flag_refuted`).
* ICE candidates (C184): the fields of `Candidate` are public and `to_attr_value` checks none of them.  `CandidateTransport::Other("UDP")` comes back as `Udp`, an extension named `raddr` becomes the related address, and an address with a blank moves the fields behind it.  Lines that were read never show this.
* Answers from a profile (C187): `profiles::negotiate_answer` builds one audio and at most one video section whatever the offer has, in that order.  Codecs match by payload type alone, so 96 is accepted for any codec, and a static type without an rtpmap is dropped, which can leave a section with a port and no format.  The direction of the offer is not read.  The parser takes any clock rate, the builder only 1000 to 1000000000, and the answer is built with `expect`: `a=rtpmap:0 PCMU/1` in a late offer is a panic in the user agent client.  That client passes its socket address, port included, as the address, which is then written as an IPv6 address.
* Profiles and ports (C187, C188): `video_port.unwrap_or(audio_port + 2)` computes the sum even when a video port is given, so with overflow checks an audio port of 65534 or 65535 panics in both `build` and `create_from_profile` (without them the sum wraps, which the model does not follow).  An offer whose text has `a=rtpmap:0 PCMU/1` parses and then panics `negotiate_answer`.  A user agent name with blanks, which the user agent client passes as the origin's user, gives an answer whose text this stack's own parser refuses.
