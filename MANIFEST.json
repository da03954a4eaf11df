{
 "claims": [
  {
   "property": "C01",
   "status": "proved",
   "theorems": [
    "C01_invite_backoff_udp",
    "C01_invite_reliable_never_repeats"
   ],
   "note": "Bound: T1,T2 at most Duration::MAX/2, beyond which the code panics."
  },
  {
   "property": "C02",
   "status": "proved",
   "theorems": [
    "C02_ack_discipline"
   ],
   "note": ""
  },
  {
   "property": "C03",
   "status": "proved",
   "theorems": [
    "C03_invite_client_deadline"
   ],
   "note": ""
  },
  {
   "property": "C04",
   "status": "partial",
   "theorems": [
    "C04_refuted",
    "C04_timer_b_after_final_partial"
   ],
   "note": "False of the code: Timer B still ends a ringing INVITE. Proved only after a final response."
  },
  {
   "property": "C05",
   "status": "proved",
   "theorems": [
    "C05_final_once",
    "C05_silent_after_end",
    "C05_backoff_udp",
    "C05_reliable_never_repeats",
    "C05_deadline"
   ],
   "note": ""
  },
  {
   "property": "C06",
   "status": "proved",
   "theorems": [
    "C06_retransmit_gets_latest",
    "C06_one_final"
   ],
   "note": ""
  },
  {
   "property": "C07",
   "status": "partial",
   "theorems": [
    "C07_refuted",
    "C07_final_until_ack_partial",
    "C07_final_reliable_partial"
   ],
   "note": "False if the user submits another final response after the ACK; proved when the user submits one final response."
  },
  {
   "property": "C08",
   "status": "proved",
   "theorems": [
    "C08_client_invite_terminated",
    "C08_client_non_invite_terminated",
    "C08_server_non_invite_terminated",
    "C08_server_invite_terminated"
   ],
   "note": ""
  },
  {
   "property": "C09",
   "status": "proved",
   "theorems": [
    "C09_bounded",
    "C09_server_eviction",
    "C09_client_eviction"
   ],
   "note": "All histories of the modelled manager operations; each public operation is one atomic step."
  },
  {
   "property": "C10",
   "status": "partial",
   "theorems": [
    "C10_key_of_via",
    "C10_unmatched",
    "C10_matched",
    "C10_retransmission_absorbed",
    "C10_handle_partial",
    "C10_presented_once_refuted",
    "C10_duplicate_start_refuted"
   ],
   "note": "Response matching is proved. The last clause is false of the code: siphond dispatches every arrival of a request to its handlers (refuted with a witness); a second client start with the same branch and method silently replaces the first."
  },
  {
   "property": "C100",
   "status": "proved",
   "theorems": [
    "C100_relay",
    "C100_relay_response"
   ],
   "note": "Requests and responses, both parsers."
  },
  {
   "property": "C101",
   "status": "partial",
   "theorems": [
    "C101_top_via_partial",
    "C101_unreadable",
    "C101_joined_refuted",
    "C101_forged_refuted"
   ],
   "note": "Proved for lines holding one Via, when the client wrote no received itself and fewer than 20 parameters. Refuted for two Vias on one line and for a received written by the client."
  },
  {
   "property": "C102",
   "status": "proved",
   "theorems": [
    "C102_bounded",
    "C102_closed"
   ],
   "note": ""
  },
  {
   "property": "C103",
   "status": "proved",
   "theorems": [
    "C103_delivered",
    "C103_request"
   ],
   "note": ""
  },
  {
   "property": "C104",
   "status": "partial",
   "theorems": [
    "C104_order",
    "C104_peer",
    "C104_kept_partial",
    "C104_lost_refuted"
   ],
   "note": "Order and peer are proved. That Ok payloads are lost only through failures is false: two concurrent first sends lose one."
  },
  {
   "property": "C105",
   "status": "proved",
   "theorems": [
    "C105_room"
   ],
   "note": "For a call that runs undisturbed while it makes room, from any reachable state."
  },
  {
   "property": "C106",
   "status": "partial",
   "theorems": [
    "C106_partial",
    "C106_refuted"
   ],
   "note": "False for every number of threads: the map's lock is held across the wait for the channel."
  },
  {
   "property": "C107",
   "status": "partial",
   "theorems": [
    "C107_carried",
    "C107_refuted"
   ],
   "note": "Exactly which parameters are carried; they are looked up by number, so they can belong to another codec (refuted)."
  },
  {
   "property": "C108",
   "status": "partial",
   "theorems": [
    "C108_written",
    "C108_read",
    "C108_distinct",
    "C108_limit_refuted",
    "C108_user_refuted",
    "C108_inject_refuted",
    "C108_swallow_refuted",
    "C108_filled",
    "C108_limits",
    "C108_over",
    "C108_maps"
   ],
   "note": "Proved for every well-formed description (and everything that was read is well formed). Refuted: the limits can be exceeded by writing; constructors accept fields that do not read back; a bandwidth line without a colon swallows the lines after it."
  },
  {
   "property": "C109",
   "status": "partial",
   "theorems": [
    "C109_other_partial",
    "C109_prefix_refuted"
   ],
   "note": "Holds for names that do not begin with a built-in protocol; any other name that begins with one (RTP/AVPF, UDP/DTLS/SCTP, TCP/MSRP, ...) makes the whole description unreadable."
  },
  {
   "property": "C11",
   "status": "proved",
   "theorems": [
    "C11_failover",
    "C11_error_reported"
   ],
   "note": "All target lists and all failure patterns."
  },
  {
   "property": "C110",
   "status": "partial",
   "theorems": [
    "C110_weight",
    "C110_equal",
    "C110_next",
    "C110_zero_refuted"
   ],
   "note": "Exact counts over all draws for the first server, and the recursion for the next ones. Zero-weight records beside weighted ones are never drawn first, unlike RFC 2782 (C110_zero_refuted)."
  },
  {
   "property": "C111",
   "status": "partial",
   "theorems": [
    "C111_partial",
    "C111_refuted"
   ],
   "note": "Proved unless the target comes from an SRV record, where it is false (C111_refuted)."
  },
  {
   "property": "C112",
   "status": "partial",
   "theorems": [
    "C112_sips",
    "C112_param",
    "C112_plain",
    "C112_tls_port_refuted",
    "C112_wss_refuted"
   ],
   "note": "Proved for all zones and draws; transport=tls is tried on port 5060 and sips with transport=ws becomes plain TLS (refuted parts)."
  },
  {
   "property": "C113",
   "status": "partial",
   "theorems": [
    "C113_best",
    "C113_none",
    "C113_uri",
    "C113_backref_refuted",
    "C113_terminal_refuted"
   ],
   "note": "Choice of the best record proved; expressions without back-references proved, back-references are not substituted and a non-terminal record may be chosen (refuted parts)."
  },
  {
   "property": "C114",
   "status": "partial",
   "theorems": [
    "C114_round_trip",
    "C114_signs",
    "C114_header_partial",
    "C114_header_refuted",
    "C114_length_refuted"
   ],
   "note": "Token round trip and verification in full. The header round trip holds unless the certificate address contains a semicolon or the value exceeds the reader's 8192 bytes; both failures are proved. The key and ECDSA are arguments."
  },
  {
   "property": "C115",
   "status": "proved",
   "theorems": [
    "C115_reads",
    "C115_covered",
    "C115_one_token",
    "C115_verifies",
    "C115_strings",
    "C115_half_pairs"
   ],
   "note": "ECDSA itself is an argument; decoding is stated against base64url and JSON grammars in IdentitySpec.v."
  },
  {
   "property": "C116",
   "status": "proved",
   "theorems": [
    "C116_chain",
    "C116_one_encoding"
   ],
   "note": "Certificate parsing, path validation and ECDSA are arguments; the conversion of the signature to DER is proved against a DER specification."
  },
  {
   "property": "C117",
   "status": "partial",
   "theorems": [
    "C117_reads",
    "C117_too_long",
    "C117_token",
    "C117_consistent_refuted"
   ],
   "note": "Reading in full for headers whose parameters all have the form name=value; parameters are never compared with the token (refuted)."
  },
  {
   "property": "C118",
   "status": "partial",
   "theorems": [
    "C118_required_partial",
    "C118_required_refuted"
   ],
   "note": "Only alg and x5u are required; every other field may be missing from a token that verifies."
  },
  {
   "property": "C119",
   "status": "partial",
   "theorems": [
    "C119_complete",
    "C119_extra_refuted",
    "C119_extra"
   ],
   "note": "holds for all builders; headers added by create_message_with_headers can repeat others"
  },
  {
   "property": "C12",
   "status": "proved",
   "theorems": [
    "C12_window_bound",
    "C12_tokens_capped",
    "C12_any_window"
   ],
   "note": "bound for windows up to the idle timeout in every configuration, and for any window when the idle timeout covers a full refill (otherwise the key may be dropped inside the window, which the property excludes)"
  },
  {
   "property": "C120",
   "status": "partial",
   "theorems": [
    "C120_outside",
    "C120_inside",
    "C120_notify",
    "C120_bye",
    "C120_from_refuted",
    "C120_register",
    "C120_prack",
    "C120_prack_response"
   ],
   "note": "the From address is the dialog's only for BYE; refuted for re-INVITE, UPDATE, INFO and REFER"
  },
  {
   "property": "C121",
   "status": "partial",
   "theorems": [
    "C121_no_panic_partial",
    "C121_no_panic_refuted"
   ],
   "note": "holds for texts without line breaks and of bounded length; refuted in general"
  },
  {
   "property": "C122",
   "status": "partial",
   "theorems": [
    "C122_from_partial",
    "C122_display",
    "C122_inside_refuted"
   ],
   "note": "holds for every display name except in re-INVITE, UPDATE, refresh and PRACK, where it is refuted"
  },
  {
   "property": "C123",
   "status": "partial",
   "theorems": [
    "C123_order",
    "C123_series",
    "C123_many_refuted",
    "C123_answered_refuted"
   ],
   "note": "one series while at most 100 registrars are used; beyond, the Call-ID changes each time"
  },
  {
   "property": "C124",
   "status": "proved",
   "theorems": [
    "C124_same_request",
    "C124_new_transaction"
   ],
   "note": "the Via and CSeq part needs those names spelled as the builders spell them (the code compares them exactly)"
  },
  {
   "property": "C125",
   "status": "partial",
   "theorems": [
    "C125_accepted",
    "C125_realm",
    "C125_second_refuted"
   ],
   "note": "refuted for a request that is challenged a second time: the old credentials stay in front"
  },
  {
   "property": "C126",
   "status": "partial",
   "theorems": [
    "C126_reads",
    "C126_panic_refuted",
    "C126_case_refuted",
    "C126_scheme_refuted",
    "C126_several_refuted"
   ],
   "note": "our own challenges are read exactly; a lone quote panics, keys are compared with case, the word digest is looked for anywhere, only the first header is read"
  },
  {
   "property": "C127",
   "status": "proved",
   "theorems": [
    "C127_prepared",
    "C127_numbered",
    "C127_response"
   ],
   "note": ""
  },
  {
   "property": "C128",
   "status": "partial",
   "theorems": [
    "C128_error",
    "C128_ok",
    "C128_credentials_refuted"
   ],
   "note": "the ACK of a 2xx does not repeat the INVITE's credentials"
  },
  {
   "property": "C129",
   "status": "proved",
   "theorems": [
    "C129_cancel"
   ],
   "note": "for header names spelled as the library spells them"
  },
  {
   "property": "C13",
   "status": "partial",
   "theorems": [
    "C13_independent_partial",
    "C13_independent_refuted"
   ],
   "note": "holds when the idle timeout covers a full refill; refuted for the shipped REGISTER preset, where other keys' traffic triggers the sweep that refills the bucket"
  },
  {
   "property": "C130",
   "status": "partial",
   "theorems": [
    "C130_unique",
    "C130_challenged_refuted",
    "C130_bye_refuted"
   ],
   "note": "false when a refresh is challenged (the retry's number is not reserved) and when a BYE is sent on a copy"
  },
  {
   "property": "C131",
   "status": "proved",
   "theorems": [
    "C131_timer",
    "C131_starts"
   ],
   "note": ""
  },
  {
   "property": "C132",
   "status": "partial",
   "theorems": [
    "C132_invite",
    "C132_other_partial",
    "C132_zero_refuted"
   ],
   "note": "exact counts; max_auth_retries = 0 still repeats a non-INVITE request once"
  },
  {
   "property": "C133",
   "status": "proved",
   "theorems": [
    "C133_routes",
    "C133_cleared"
   ],
   "note": ""
  },
  {
   "property": "C134",
   "status": "partial",
   "theorems": [
    "C134_via",
    "C134_contact_partial",
    "C134_contact_refuted"
   ],
   "note": "URI parameters of the Contact are lost"
  },
  {
   "property": "C135",
   "status": "partial",
   "theorems": [
    "C135_answers",
    "C135_panics_exactly",
    "C135_no_panic_partial",
    "C135_vias_refuted",
    "C135_to_refuted",
    "C135_refused",
    "C135_notify_refused"
   ],
   "note": "Contents proved for every response; it is built exactly when status, header count and To length fit. 200 Via lines or a long To make it panic."
  },
  {
   "property": "C136",
   "status": "partial",
   "theorems": [
    "C136_tag_partial",
    "C136_hidden_refuted",
    "C136_second_refuted",
    "C136_two_tags_refuted"
   ],
   "note": "Proved for addresses and tags without odd texts; a tag text in the URI or display name hides the missing tag, blanks or upper case get a second tag, and 180 and 200 have different tags."
  },
  {
   "property": "C137",
   "status": "partial",
   "theorems": [
    "C137_two_ends",
    "C137_call_partial",
    "C137_full_refuted",
    "C137_display_refuted",
    "C137_caller"
   ],
   "note": "Whole call proved for plain identities; refuted for 10000 stored dialogs and a display name with an angle bracket."
  },
  {
   "property": "C138",
   "status": "partial",
   "theorems": [
    "C138_accepted",
    "C138_refused",
    "C138_dispatch",
    "C138_panic_refuted",
    "C138_replay_refuted",
    "C138_no_target"
   ],
   "note": "Match of Call-ID and tags proved; CSeq is not checked and a From with an accented letter panics."
  },
  {
   "property": "C139",
   "status": "partial",
   "theorems": [
    "C139_gate",
    "C139_calls",
    "C139_cancel_refuted"
   ],
   "note": "Gate proved for every request; CANCEL is challenged although it cannot be repeated."
  },
  {
   "property": "C14",
   "status": "partial",
   "theorems": [
    "C14_cleanup_harmless_partial",
    "C14_cleanup_refuted",
    "C14_query_refuted"
   ],
   "note": "holds when the idle timeout covers a full refill and the key is not queried; refuted for the shipped REGISTER preset"
  },
  {
   "property": "C140",
   "status": "partial",
   "theorems": [
    "C140_accepted",
    "C140_both",
    "C140_refused",
    "C140_short_refuted",
    "C140_loop_refuted",
    "C140_unread_refuted",
    "C140_validate",
    "C140_validated",
    "C140_min_se"
   ],
   "note": "Agreement proved; refuted: intervals below 90 s are ignored, fractional minimums are truncated in the 422, and policies below 90 s are promised but not read."
  },
  {
   "property": "C141",
   "status": "partial",
   "theorems": [
    "C141_response",
    "C141_numbers",
    "C141_prack_partial",
    "C141_trying_refuted",
    "C141_status_refuted",
    "C141_key_partial",
    "C141_key_refuted",
    "C141_verdict",
    "C141_tag_replaced"
   ],
   "note": "Proved for calls of the client within five minutes and distinct RSeq numbers; a 100 can be made reliable, unreadable RAcks give 481, and keys of dialogs whose tags have colons collide."
  },
  {
   "property": "C142",
   "status": "partial",
   "theorems": [
    "C142_once",
    "C142_cancel",
    "C142_options",
    "C142_options_refuted",
    "C142_no_crash_partial",
    "C142_cancel_refuted"
   ],
   "note": "Proved for every request; the application is never asked about OPTIONS, and a CANCEL with an over-long CSeq crashes."
  },
  {
   "property": "C143",
   "status": "partial",
   "theorems": [
    "C143_filled",
    "C143_idempotent",
    "C143_no_panic_partial",
    "C143_v6_refuted",
    "C143_full_refuted"
   ],
   "note": "Proved; IPv6 addresses lack brackets, and responses with 200 headers panic."
  },
  {
   "property": "C144",
   "status": "partial",
   "theorems": [
    "C144_accepted",
    "C144_notify",
    "C144_numbers",
    "C144_target_refuted",
    "C144_lifetime",
    "C144_capacity",
    "C144_notify_via"
   ],
   "note": "Contents and numbering proved; notifications are addressed to the server itself."
  },
  {
   "property": "C145",
   "status": "partial",
   "theorems": [
    "C145_reads",
    "C145_reparse",
    "C145_roundtrip_partial",
    "C145_roundtrip_refuted",
    "C145_transfer",
    "C145_headers_refuted"
   ],
   "note": "Headers built from parts survive printing exactly when the parts contain no semicolon and no outer blanks; a Refer-To target that already has URI headers swallows the Replaces header."
  },
  {
   "property": "C146",
   "status": "partial",
   "theorems": [
    "C146_reads",
    "C146_only",
    "C146_roundtrip",
    "C146_builds",
    "C146_headers",
    "C146_identity",
    "C146_frame",
    "C146_none",
    "C146_works",
    "C146_due",
    "C146_contacts_refuted",
    "C146_failed_refuted",
    "C146_ignored_refuted"
   ],
   "note": "Of a Contact header with several addresses only the first is hidden; when it fails asserted identities stay; an unknown value or a second Privacy header is ignored."
  },
  {
   "property": "C147",
   "status": "proved",
   "theorems": [
    "C147_reads",
    "C147_sound",
    "C147_roundtrip",
    "C147_q850",
    "C147_sip",
    "C147_semicolon_refuted",
    "C147_backslash_refuted",
    "C147_quoted_refuted"
   ],
   "note": "The round trip is an exact characterisation; the three refutations show what falls outside it."
  },
  {
   "property": "C148",
   "status": "partial",
   "theorems": [
    "C148_roundtrip",
    "C148_sound",
    "C148_endings",
    "C148_order",
    "C148_zones_refuted",
    "C148_repeats_refuted"
   ],
   "note": "Round trip for every sound description and soundness of every parsed one, for at most 50 time zones: several z= lines accumulate past the limit and then the written text is refused (C148_zones_refuted). Which t= line an r= line belongs to is lost (C148_repeats_refuted). Error values are not modelled."
  },
  {
   "property": "C149",
   "status": "partial",
   "theorems": [
    "C149_streams",
    "C149_ports",
    "C149_total",
    "C149_wire",
    "C149_preference_refuted",
    "C149_listed_refuted",
    "C149_disabled_refuted",
    "C149_session_direction_refuted",
    "C149_port_refuted",
    "C149_wire_refuted"
   ],
   "note": "Streams, codecs, parameters, directions and ports hold for every order of the hash map. Refuted: the order of preference is lost, formats not listed are answered, streams offered with port 0 get a port, a session-level direction is ignored, a base port of 65534 overflows, IPv6 is announced as IP4 and options with blanks make unreadable answers. The wire theorem asks for options that are words and at most a hundred attribute lines per stream."
  },
  {
   "property": "C15",
   "status": "proved",
   "theorems": [
    "C15_bounded",
    "C15_full"
   ],
   "note": "calls are atomic in the model; the check-then-insert race between threads is outside it"
  },
  {
   "property": "C150",
   "status": "partial",
   "theorems": [
    "C150_hold",
    "C150_resume",
    "C150_restore",
    "C150_silence",
    "C150_version",
    "C150_wire",
    "C150_restore_refuted",
    "C150_session_refuted"
   ],
   "note": "Refuted: sendonly and inactive streams are not restored, and a session-level direction is not seen, so that holding an inactive session makes it send. A version of 2^64-1 overflows."
  },
  {
   "property": "C151",
   "status": "partial",
   "theorems": [
    "C151_case",
    "C151_met",
    "C151_answer",
    "C151_met_refuted"
   ],
   "note": "The rule for starting holds if no two curr lines are about the same status; with two only the first counts (C151_met_refuted)."
  },
  {
   "property": "C152",
   "status": "partial",
   "theorems": [
    "C152_roundtrip",
    "C152_matches",
    "C152_roundtrip_refuted",
    "C152_quoted_refuted",
    "C152_allowed",
    "C152_tags"
   ],
   "note": "Reading and writing of floating-point numbers are arguments. Values that cannot be told apart on the wire are named by [sendable]; the _refuted theorems show what happens to the others."
  },
  {
   "property": "C153",
   "status": "proved",
   "theorems": [
    "C153_score",
    "C153_contacts",
    "C153_limits",
    "C153_immune_refuted"
   ],
   "note": "Scores are rational numbers where the code rounds to f64. The documentation says contacts without explicit features are immune; refuted."
  },
  {
   "property": "C154",
   "status": "proved",
   "theorems": [
    "C154_read",
    "C154_roundtrip"
   ],
   "note": ""
  },
  {
   "property": "C155",
   "status": "partial",
   "theorems": [
    "C155_safe",
    "C155_roundtrip",
    "C155_params_refuted",
    "C155_headerless_refuted",
    "C155_lines_refuted",
    "C155_body_refuted",
    "C155_flag_refuted"
   ],
   "note": "Holds for messages with at least one header, without parameters, with a UTF-8 body. Refuted: no message with a parameter is read back, nor one without headers, nor a body that is not UTF-8; LF blank lines in a body change."
  },
  {
   "property": "C156",
   "status": "proved",
   "theorems": [
    "C156_built",
    "C156_accepted",
    "C156_writable",
    "C156_escapes"
   ],
   "note": ""
  },
  {
   "property": "C157",
   "status": "proved",
   "theorems": [
    "C157_escape",
    "C157_escape_once",
    "C157_edit",
    "C157_refused",
    "C157_replace_refuted"
   ],
   "note": "C157_replace_refuted: at the limit not even an existing content header can be replaced."
  },
  {
   "property": "C158",
   "status": "partial",
   "theorems": [
    "C158_read",
    "C158_roundtrip",
    "C158_heads_refuted",
    "C158_nothing_refuted",
    "C158_size_refuted",
    "C158_order"
   ],
   "note": "full round trip for at most one message header that says something; in general the exact result is proved. Refuted otherwise: no blank line is written between message headers so that several are read as one; an empty header is lost; 50 long headers exceed what the reader takes"
  },
  {
   "property": "C159",
   "status": "partial",
   "theorems": [
    "C159_limits",
    "C159_status",
    "C159_counts",
    "C159_line_ends",
    "C159_totals",
    "C159_totals_refuted",
    "C159_urgent"
   ],
   "note": "totals are right when they fit in 32 bits; a text that is accepted can make them overflow (a panic with overflow checks, a wrong number without)"
  },
  {
   "property": "C16",
   "status": "partial",
   "theorems": [
    "C16_no_replay_partial",
    "C16_same_target_partial",
    "C16_bounded_step",
    "C16_refuted"
   ],
   "note": "Counts strictly increase except for a retransmission recognised by the request hash; the full statement is refuted because the hashed text method:uri:body is ambiguous. Random nonces of the history are assumed distinct."
  },
  {
   "property": "C160",
   "status": "partial",
   "theorems": [
    "C160_escape",
    "C160_roundtrip",
    "C160_fits",
    "C160_size_refuted"
   ],
   "note": "proved for every document of at most 1 MiB, which every document without characters to escape is; refuted for longer ones, which the interface can build but the reader refuses"
  },
  {
   "property": "C161",
   "status": "partial",
   "theorems": [
    "C161_limits",
    "C161_attributes_refuted",
    "C161_comment_refuted",
    "C161_reference_refuted",
    "C161_text",
    "C161_status"
   ],
   "note": "limits proved for every text; that the elements of the XML are read is refuted: attributes make contact and note disappear, comments are read, numeric references are not"
  },
  {
   "property": "C162",
   "status": "partial",
   "theorems": [
    "C162_limits",
    "C162_roundtrip",
    "C162_read",
    "C162_semicolon_refuted"
   ],
   "note": "holds except for values with a semicolon, which are written so that reading refuses them"
  },
  {
   "property": "C163",
   "status": "proved",
   "theorems": [
    "C163_params",
    "C163_blanks"
   ],
   "note": ""
  },
  {
   "property": "C164",
   "status": "partial",
   "theorems": [
    "C164_limits",
    "C164_roundtrip",
    "C164_read",
    "C164_reread_refuted",
    "C164_values_refuted",
    "C164_bad_q"
   ],
   "note": "false in general: a value may hold separators and then adds mechanisms nobody set, and a text with an open quote that is read is written as something else"
  },
  {
   "property": "C165",
   "status": "partial",
   "theorems": [
    "C165_params",
    "C165_preference",
    "C165_spelling_refuted",
    "C165_full_refuted",
    "C165_best",
    "C165_twice_refuted",
    "C165_verify",
    "C165_sorted",
    "C165_weight"
   ],
   "note": "false in part: a \"Q\" parameter hides the preference set, an entry with 20 parameters cannot be changed, and of a mechanism that the client lists twice only the first entry counts; the arithmetic of preferences is an argument (ranking laws are hypotheses)"
  },
  {
   "property": "C166",
   "status": "proved",
   "theorems": [
    "C166_params",
    "C166_limits",
    "C166_state"
   ],
   "note": ""
  },
  {
   "property": "C167",
   "status": "proved",
   "theorems": [
    "C167_etag",
    "C167_refer_sub",
    "C167_subject",
    "C167_priority",
    "C167_urgency",
    "C167_version",
    "C167_order"
   ],
   "note": "the time that comparing entity tags takes is not modelled"
  },
  {
   "property": "C168",
   "status": "partial",
   "theorems": [
    "C168_accepts",
    "C168_past",
    "C168_calendar_refuted",
    "C168_no_refuted",
    "C168_seconds_refuted"
   ],
   "note": "false in part: impossible dates and text behind the date are accepted, the answer \"no\" is never given, and a date made from a time with a fraction of a second is not the one read from its text (for any date library that writes whole seconds); the httpdate crate is an argument"
  },
  {
   "property": "C169",
   "status": "partial",
   "theorems": [
    "C169_limits",
    "C169_roundtrip_partial",
    "C169_values",
    "C169_decoy_refuted",
    "C169_refused_refuted",
    "C169_blank_refuted"
   ],
   "note": "Proved under the stated provisos; without them it fails: an identifier holding a blank, an attribute name and an equals sign is taken for that attribute, and white space at the ends of a watcher's address is lost."
  },
  {
   "property": "C17",
   "status": "proved",
   "theorems": [
    "C17_sound",
    "C17_complete",
    "C17_challenge_response",
    "C17_challenge_readable"
   ],
   "note": "The hash is a parameter (hex output of at most 256 bytes for completeness). URIs over 256 bytes do not fit the header parser."
  },
  {
   "property": "C170",
   "status": "partial",
   "theorems": [
    "C170_read",
    "C170_words",
    "C170_number_refuted",
    "C170_reference",
    "C170_quotes"
   ],
   "note": "Limits and names proved for every text; an expiration or duration that is no 32-bit number is dropped without an error."
  },
  {
   "property": "C171",
   "status": "partial",
   "theorems": [
    "C171_limits",
    "C171_reads",
    "C171_roundtrip_partial",
    "C171_stop_refuted",
    "C171_comma_refuted",
    "C171_long_refuted"
   ],
   "note": "Acceptance is characterised exactly; the round trip holds under its provisos and fails without them (a full stop in a namespace, a comma, four values of full length)."
  },
  {
   "property": "C172",
   "status": "partial",
   "theorems": [
    "C172_reads",
    "C172_built",
    "C172_lookup",
    "C172_reason_refuted",
    "C172_index"
   ],
   "note": "Acceptance and contents are exact (iff). Refuted in part: headers inside the URI (the RFC 7044 Reason) are lost."
  },
  {
   "property": "C173",
   "status": "partial",
   "theorems": [
    "C173_reads",
    "C173_dropped_refuted"
   ],
   "note": "Values are exactly the addresses in order; well-formed parameters are kept. Refuted in part: parts that are no address and parameters that break a limit are dropped silently."
  },
  {
   "property": "C174",
   "status": "partial",
   "theorems": [
    "C174_built",
    "C174_roundtrip_partial",
    "C174_read",
    "C174_first",
    "C174_injected_refuted",
    "C174_tel"
   ],
   "note": "the round trip is proved for names without quotes and backslashes, values without separators and addresses without angle brackets; without these conditions it is refuted: a name holding a quotation mark injects an identity"
  },
  {
   "property": "C175",
   "status": "partial",
   "theorems": [
    "C175_access",
    "C175_limits",
    "C175_visited",
    "C175_quoted_refuted"
   ],
   "note": "parameters are read as written when values hold no semicolon; refuted for a quoted value that does"
  },
  {
   "property": "C176",
   "status": "partial",
   "theorems": [
    "C176_accept",
    "C176_described_partial",
    "C176_described_refuted",
    "C176_written",
    "C176_no_body"
   ],
   "note": "proved for all calls except those through headers_mut, which refute it: the headers of a body can be removed"
  },
  {
   "property": "C177",
   "status": "partial",
   "theorems": [
    "C177_dialog",
    "C177_cancel",
    "C177_cancel_refuted",
    "C177_sides",
    "C177_range",
    "C177_headers"
   ],
   "note": "CANCEL and ACK follow their INVITE when the number of workers is a power of two (proved for every hash); refuted for other numbers"
  },
  {
   "property": "C178",
   "status": "partial",
   "theorems": [
    "C178_no_panic",
    "C178_read",
    "C178_built",
    "C178_roundtrip_partial",
    "C178_injected_refuted",
    "C178_order_refuted"
   ],
   "note": "the round trip is proved for names without quotation marks, Content-IDs without semicolons and parameters without separators that are not named cid; refuted otherwise"
  },
  {
   "property": "C179",
   "status": "partial",
   "theorems": [
    "C179_records",
    "C179_accepts",
    "C179_same",
    "C179_expiry_refuted",
    "C179_refresh",
    "C179_notify_refuted",
    "C179_cseq",
    "C179_cseq_made",
    "C179_id",
    "C179_id_refuted",
    "C179_words",
    "C179_updates"
   ],
   "note": "Refuted in part: without Expires in the response the two sides hold different expiries; the identifier made from a NOTIFY has the tags exchanged and never matches; SubscriptionId::new panics on some events."
  },
  {
   "property": "C18",
   "status": "partial",
   "theorems": [
    "C18_bounded_partial",
    "C18_refuted"
   ],
   "note": "Holds for a maximum of at least 10; refuted below."
  },
  {
   "property": "C180",
   "status": "partial",
   "theorems": [
    "C180_bounded",
    "C180_insert",
    "C180_remove",
    "C180_lists",
    "C180_cleanup",
    "C180_cleanup_steps",
    "C180_kept",
    "C180_kept_refuted",
    "C180_package_refuted",
    "C180_update_refuted"
   ],
   "note": "Refuted in part: a cleanup under way removes a subscription that has just been renewed; by_event compares the whole header; a full store refuses updates. The scan of a cleanup is one step in the model."
  },
  {
   "property": "C181",
   "status": "partial",
   "theorems": [
    "C181_pieces",
    "C181_reads",
    "C181_bounded",
    "C181_build",
    "C181_loose",
    "C181_roundtrip",
    "C181_comma_refuted",
    "C181_headers_refuted",
    "C181_quote_refuted"
   ],
   "note": "Reading, limits and looseness are proved for all inputs. The round trip holds for routes whose texts hold none of the reader's separators; it is refuted for a comma in a user part (allowed by RFC 3261), for URI headers and for a quotation mark in a display name, which is written without a backslash and lets the name inject a route."
  },
  {
   "property": "C182",
   "status": "partial",
   "theorems": [
    "C182_limits",
    "C182_contact",
    "C182_set",
    "C182_add",
    "C182_event",
    "C182_twice_refuted"
   ],
   "note": "Limits by induction over builder calls, acceptance as equivalences. Refuted: two registrations may carry the same identifier, which RFC 3680 does not allow. Floating point is not modelled: a weight is whether it lies in 0..1 and what Display writes for it."
  },
  {
   "property": "C183",
   "status": "partial",
   "theorems": [
    "C183_told",
    "C183_distinct",
    "C183_char_refuted"
   ],
   "note": "The reading of XML (tags, quoted values, the five references, layout) is specified in RegEventSpec.v and proved to be a function. Refuted: characters that XML 1.0 does not allow (U+FFFE) are accepted and written, so such a document is not well-formed."
  },
  {
   "property": "C184",
   "status": "partial",
   "theorems": [
    "C184_read",
    "C184_fits",
    "C184_roundtrip",
    "C184_again",
    "C184_list",
    "C184_fields_refuted"
   ],
   "note": "Reading, rereading and the list operations hold in full. Candidates built by an application survive only if their fields fit a line: the fields are public and not checked."
  },
  {
   "property": "C185",
   "status": "proved",
   "theorems": [
    "C185_setup"
   ],
   "note": ""
  },
  {
   "property": "C186",
   "status": "proved",
   "theorems": [
    "C186_read"
   ],
   "note": ""
  },
  {
   "property": "C187",
   "status": "partial",
   "theorems": [
    "C187_answer",
    "C187_total",
    "C187_static_refuted",
    "C187_number_refuted",
    "C187_sections_refuted",
    "C187_direction_refuted",
    "C187_panic_refuted",
    "C187_address_refuted",
    "C187_marks",
    "C187_port",
    "C187_wire_refuted",
    "C187_name_refuted"
   ],
   "note": "What the answer holds is settled for every offer, and that there is one for offers with at most 40 formats, usual names and usual rates. The rest of the property is false: codecs are matched by number and only with an rtpmap, sections and direction of the offer are ignored, and a rate outside the builder's limits is a panic."
  },
  {
   "property": "C188",
   "status": "partial",
   "theorems": [
    "C188_created",
    "C188_panics",
    "C188_port_refuted"
   ],
   "note": "What an offer holds and exactly when it is made are proved. That it is made for every port is false: for the video profile an audio port above 65533 overflows even when a video port is given."
  },
  {
   "property": "C19",
   "status": "partial",
   "theorems": [
    "C19_failed_attempt_partial",
    "C19_refuted"
   ],
   "note": "Refuted: a wrong digest spends the nonce count. Proved: what a failed attempt can change."
  },
  {
   "property": "C20",
   "status": "proved",
   "theorems": [
    "C20_roundtrip",
    "C20_agree",
    "C20_client_sound"
   ],
   "note": ""
  },
  {
   "property": "C21",
   "status": "proved",
   "theorems": [
    "C21_increasing",
    "C21_accepts"
   ],
   "note": "Accepted numbers strictly increase, lie in 1..2^31-1 and jump by at most 1000; conversely every such continuation is accepted."
  },
  {
   "property": "C22",
   "status": "proved",
   "theorems": [
    "C22_unchanged"
   ],
   "note": "Requests, session-interval setter and table insert; update_from_response reports no errors."
  },
  {
   "property": "C23",
   "status": "proved",
   "theorems": [
    "C23_identity",
    "C23_routes_fixed",
    "C23_routes_early",
    "C23_route_order"
   ],
   "note": "Route order is stated for Record-Route lines listing routes as <uri>, spread over any number of lines."
  },
  {
   "property": "C24",
   "status": "proved",
   "theorems": [
    "C24_terminated",
    "C24_forward"
   ],
   "note": ""
  },
  {
   "property": "C25",
   "status": "proved",
   "theorems": [
    "C25_bounded",
    "C25_insert"
   ],
   "note": "Concurrent: any interleaving of inserts (serialised by the lock, reading possibly stale sizes), removals and cleanups."
  },
  {
   "property": "C26",
   "status": "partial",
   "theorems": [
    "C26_fresh",
    "C26_increasing",
    "C26_range_refuted",
    "C26_saturation_refuted"
   ],
   "note": "Strictly increasing up to the protocol maximum; beyond it the code goes on (refuted parts) and repeats at 2^32-1."
  },
  {
   "property": "C27",
   "status": "partial",
   "theorems": [
    "C27_ack_partial",
    "C27_ack_refuted"
   ],
   "note": "Refuted in general: a PRACK/UPDATE/INFO accepted in between makes the ACK be refused. Proved when nothing but ACKs was accepted in between."
  },
  {
   "property": "C28",
   "status": "proved",
   "theorems": [
    "C28_at_most_once",
    "C28_names",
    "C28_accepts",
    "C28_reported"
   ],
   "note": ""
  },
  {
   "property": "C29",
   "status": "partial",
   "theorems": [
    "C29_bounded",
    "C29_drops_oldest",
    "C29_age",
    "C29_pending",
    "C29_total_refuted"
   ],
   "note": "The per-dialog bound, what is dropped, and the age bound after a clean-up are proved. The total is not bounded: clean-up bookkeeping grows for dialogs nothing was registered for (C29_total_refuted)."
  },
  {
   "property": "C30",
   "status": "partial",
   "theorems": [
    "C30_rseq_roundtrip",
    "C30_rseq_range",
    "C30_rack_roundtrip",
    "C30_rack_range",
    "C30_next",
    "C30_validator_roundtrip_partial",
    "C30_validator_refuted"
   ],
   "note": "Full for the header types of sip-core. The validator's own RAck type reads back for standard methods only (C30_validator_refuted)."
  },
  {
   "property": "C31",
   "status": "proved",
   "theorems": [
    "C31_bounds",
    "C31_refused",
    "C31_preference",
    "C31_refresh_half",
    "C31_validate"
   ],
   "note": ""
  },
  {
   "property": "C32",
   "status": "partial",
   "theorems": [
    "C32_refuted",
    "C32_not_early_partial",
    "C32_restart_kept_partial",
    "C32_can_fire",
    "C32_not_late_partial"
   ],
   "note": "False of every schedule: a cancelled task polled after its deadline may still report expiry and remove the new timer (C32_refuted). Proved for schedules in which cancelled tasks are polled before their deadline and timers are restarted before they are due."
  },
  {
   "property": "C33",
   "status": "partial",
   "theorems": [
    "C33_bounds",
    "C33_accepts",
    "C33_race_refuted"
   ],
   "note": "per-address bound and uniqueness proved for every history; the total bound holds for sequential use and is refuted for concurrent use (the count and the insert are separate steps)"
  },
  {
   "property": "C34",
   "status": "proved",
   "theorems": [
    "C34_lookup",
    "C34_cleanup"
   ],
   "note": ""
  },
  {
   "property": "C35",
   "status": "partial",
   "theorems": [
    "C35_old_cseq_partial",
    "C35_history_partial",
    "C35_wildcard_refuted"
   ],
   "note": "proved per contact for non-wildcard requests; refuted for wildcards, which ignore CSeq"
  },
  {
   "property": "C36",
   "status": "partial",
   "theorems": [
    "C36_single_contact_partial",
    "C36_two_contacts_refuted",
    "C36_failure_refuted"
   ],
   "note": "holds for requests with one contact; refuted for several contacts and when the response cannot be built"
  },
  {
   "property": "C37",
   "status": "partial",
   "theorems": [
    "C37_authorised_partial",
    "C37_case_refuted",
    "C37_proxy_refuted"
   ],
   "note": "proved for Authorization-mode digest, up to letter case and Unicode normalisation of the name; refuted for exact names and for a proxy-mode authenticator"
  },
  {
   "property": "C38",
   "status": "partial",
   "theorems": [
    "C38_sip_same_partial",
    "C38_sip_idempotent_partial",
    "C38_ipv6_refuted",
    "C38_percent_refuted",
    "C38_tel_same_partial",
    "C38_tel_idempotent_partial",
    "C38_tel_case_refuted"
   ],
   "note": "non-IPv6 hosts; idempotence needs a user without percent signs and tel parameters that stay distinct when lower-cased"
  },
  {
   "property": "C39",
   "status": "partial",
   "theorems": [
    "C39_best_partial",
    "C39_challenges_partial",
    "C39_first_refuted",
    "C39_late_provisional_refuted",
    "C39_race_refuted"
   ],
   "note": "Proved for calls made one after the other; \"first among equals\" is false for 2xx/6xx (the last wins), a late 1xx loses a branch's challenges, and concurrent calls can forward a worse response."
  },
  {
   "property": "C40",
   "status": "partial",
   "theorems": [
    "C40_when_partial",
    "C40_one_partial",
    "C40_6xx_refuted",
    "C40_retransmission_refuted",
    "C40_late_provisional_refuted",
    "C40_race_refuted"
   ],
   "note": "Proved for sequential calls with one final per branch, and for the single failure without 6xx. Refuted: a 6xx is forwarded twice; retransmitted finals and late provisionals complete the context early; concurrent calls forward two failures."
  },
  {
   "property": "C41",
   "status": "partial",
   "theorems": [
    "C41_partial",
    "C41_after_6xx_refuted",
    "C41_once_refuted"
   ],
   "note": "All interleavings without a 6xx: every 2xx is forwarded at once exactly one time. Refuted after a 6xx; and a 2xx may be forwarded a second time when the other branches finish."
  },
  {
   "property": "C42",
   "status": "partial",
   "theorems": [
    "C42_detected_partial",
    "C42_spiral",
    "C42_port_refuted",
    "C42_retarget_refuted",
    "C42_separator_refuted",
    "C42_simple"
   ],
   "note": "Detection proved for proxy hosts without a colon; refuted for host:port and IPv6 hosts (never fires), for a proxy that retargets before adding its Via, and (as to the hash input) for fields containing U+001F. The hash is an arbitrary function with alphanumeric output; \"no collision\" is a hypothesis where needed."
  },
  {
   "property": "C43",
   "status": "proved",
   "theorems": [
    "C43_step",
    "C43_rejected",
    "C43_bound",
    "C43_exact"
   ],
   "note": "The bound is over any number of forwarding steps with arbitrary processing in between that does not raise Max-Forwards."
  },
  {
   "property": "C44",
   "status": "partial",
   "theorems": [
    "C44_partial",
    "C44_refuted",
    "C44_when",
    "C44_preprocess"
   ],
   "note": "Proved for Request-URIs without quote, '>' and outer whitespace; refuted for a URI parameter value containing '>'."
  },
  {
   "property": "C45",
   "status": "partial",
   "theorems": [
    "C45_inverse_partial",
    "C45_chain_partial",
    "C45_joined_refuted"
   ],
   "note": "Proved when every Via value is on its own line; refuted for a response that carries several on one line."
  },
  {
   "property": "C46",
   "status": "partial",
   "theorems": [
    "C46_refuted",
    "C46_entries_partial",
    "C46_lr_partial",
    "C46_headers_refuted"
   ],
   "note": "The order is refuted: entries are appended. Proved: one entry per proxy, nothing else changes, the entry is a loose route to the proxy URI; refuted when the proxy URI has URI headers."
  },
  {
   "property": "C47",
   "status": "proved",
   "theorems": [
    "C47_cohorts",
    "C47_tolerance_refuted"
   ],
   "note": "q values are integers (multiples of 2^-149) or NaN; the float comparison with the tolerance is an arbitrary reflexive-false relation. Also shown: q values closer than the tolerance are reordered within a cohort."
  },
  {
   "property": "C48",
   "status": "partial",
   "theorems": [
    "C48_branches",
    "C48_contexts_partial",
    "C48_contexts_race_refuted",
    "C48_no_branch_after_6xx_partial",
    "C48_6xx_race_refuted",
    "C48_cleanup",
    "C48_found",
    "C48_found_call"
   ],
   "note": "Branch bound in all interleavings; context bound and 6xx rule for sequential calls, both refuted for concurrent calls (check and insertion are not atomic)."
  },
  {
   "property": "C49",
   "status": "partial",
   "theorems": [
    "C49_faithful",
    "C49_roundtrip_partial",
    "C49_uri_refuted",
    "C49_tel_refuted",
    "C49_count_refuted"
   ],
   "note": "Anything parsed from a serialised request is that request as the receiver should see it, and it is accepted when the arriving headers obey the parser's rules. Missing: Request-URIs with white space and full header collections, which do not round trip (refuted)."
  },
  {
   "property": "C50",
   "status": "partial",
   "theorems": [
    "C50_faithful",
    "C50_roundtrip_partial",
    "C50_empty_refuted",
    "C50_edge_refuted"
   ],
   "note": "Round trip for responses with a non-empty reason phrase without white space at its ends. The others do not round trip (refuted)."
  },
  {
   "property": "C51",
   "status": "proved",
   "theorems": [
    "C51_request",
    "C51_response"
   ],
   "note": "For every message made through the API: one line per header, no line with a CR or LF."
  },
  {
   "property": "C52",
   "status": "partial",
   "theorems": [
    "C52_request_partial",
    "C52_response_partial",
    "C52_lenient",
    "C52_cseq_refuted",
    "C52_plus",
    "C52_lenient_response"
   ],
   "note": "All byte strings accepted by the strict parsers: framing, Content-Length, singletons, CSeq range and method when a CSeq is present. Messages without CSeq are accepted and the CSeq method is compared ignoring case (refuted)."
  },
  {
   "property": "C53",
   "status": "proved",
   "theorems": [
    "C53_limits",
    "C53_push_appends",
    "C53_set_or_push_in_place",
    "C53_get_first",
    "C53_remove"
   ],
   "note": ""
  },
  {
   "property": "C54",
   "status": "partial",
   "theorems": [
    "C54_reads",
    "C54_parsed",
    "C54_built_partial",
    "C54_wellformed",
    "C54_set",
    "C54_no_duplicate",
    "C54_inject_refuted"
   ],
   "note": "Parsed Vias round-trip, and the parser reads exactly what the text says. For Vias changed through the API the round trip is false when a value contains ';' (C54_inject_refuted) and proved otherwise (C54_built_partial)."
  },
  {
   "property": "C55",
   "status": "partial",
   "theorems": [
    "C55_reads",
    "C55_roundtrip_partial",
    "C55_built",
    "C55_contains",
    "C55_empty_refuted"
   ],
   "note": "Every non-empty list round-trips; the empty list prints as the empty text, which does not parse (C55_empty_refuted)."
  },
  {
   "property": "C56",
   "status": "partial",
   "theorems": [
    "C56_parsed_text",
    "C56_roundtrip_partial",
    "C56_percent_refuted",
    "C56_param_refuted",
    "C56_ipv6_refuted"
   ],
   "note": "The full claim is false of the code (three refutation theorems); the partial theorem states the exact conditions under which the round trip holds."
  },
  {
   "property": "C57",
   "status": "proved",
   "theorems": [
    "C57_roundtrip",
    "C57_token_determines"
   ],
   "note": "For methods obtained from a token; the public constructor Method::Unknown can build values outside this set."
  },
  {
   "property": "C58",
   "status": "partial",
   "theorems": [
    "C58_segmentation_partial",
    "C58_delivered",
    "C58_prefix",
    "C58_honest",
    "C58_lost_refuted",
    "C58_boundary_refuted"
   ],
   "note": "Sessions left open agree for every segmentation; streams whose header blocks are at most 65533 bytes are delivered identically under every segmentation; any two segmentations deliver comparable prefixes. Refuted: a header block of 65534-65536 bytes cut in its blank line closes the connection; complete messages in the same read as a malformed one are dropped."
  },
  {
   "property": "C59",
   "status": "proved",
   "theorems": [
    "C59_framing",
    "C59_unique",
    "C59_messages",
    "C59_bytes"
   ],
   "note": ""
  },
  {
   "property": "C60",
   "status": "proved",
   "theorems": [
    "C60_secure",
    "C60_mtu",
    "C60_otherwise",
    "C60_daemon_secure",
    "C60_daemon_mtu_partial",
    "C60_daemon_refuted"
   ],
   "note": "The policy satisfies the property; siphond falls back to UDP above the MTU when the peer has no stream."
  },
  {
   "property": "C61",
   "status": "proved",
   "theorems": [
    "C61_size",
    "C61_slots",
    "C61_sockets_refuted"
   ],
   "note": "Established plus in-progress entries never exceed the maximum, and no slot leaks. A stronger reading in terms of open sockets is false: an evicted connection is only told to close."
  },
  {
   "property": "C62",
   "status": "partial",
   "theorems": [
    "C62_partial",
    "C62_refuted"
   ],
   "note": "False as stated: the supervisor removes by key. Proved once the supervisors of earlier connections have acted."
  },
  {
   "property": "C63",
   "status": "proved",
   "theorems": [
    "C63_lines",
    "C63_session",
    "C63_answers",
    "C63_disabled_refuted"
   ],
   "note": "Line-by-line match, at most one accepted line per type, and success conditions. Finding: a line offered with port 0 is answered and blocks later lines of its type."
  },
  {
   "property": "C64",
   "status": "partial",
   "theorems": [
    "C64_formats",
    "C64_codecs",
    "C64_static_refuted"
   ],
   "note": "Common formats in the offerer's order with the right codec for numbers from 96; below 96 matching is by number, which is wrong for 35-95 (refuted)."
  },
  {
   "property": "C65",
   "status": "partial",
   "theorems": [
    "C65_offerer_partial",
    "C65_agreed_partial",
    "C65_given_up",
    "C65_no_answer",
    "C65_refuted",
    "C65_whole_refuted",
    "C65_session_refuted"
   ],
   "note": "The answered direction always fits the offerer; it fits the local side exactly unless both are the same one-way direction. The whole session is refused for exactly the pairs in given_up, which include perfect matches; session-level directions are ignored."
  },
  {
   "property": "C66",
   "status": "partial",
   "theorems": [
    "C66_srv",
    "C66_naptr_partial",
    "C66_services",
    "C66_numeric",
    "C66_port",
    "C66_all",
    "C66_naptr_refuted",
    "C66_many_refuted",
    "C66_addresses"
   ],
   "note": "Proved without NAPTR records for every zone and draw. With NAPTR records the lookups made are proved, but they are not those of RFC 3263 (C66_naptr_refuted), and more than 100 records are an error (C66_many_refuted)."
  },
  {
   "property": "C67",
   "status": "partial",
   "theorems": [
    "C67_names",
    "C67_addresses",
    "C67_total",
    "C67_exact",
    "C67_150",
    "C67_enum",
    "C67_enum_distinct",
    "C67_tel",
    "C67_tel_refuted",
    "C67_66",
    "C67_66_none"
   ],
   "note": "Proved, but tel URIs built with separators through the API get no ENUM domain (C67_tel_refuted).."
  },
  {
   "property": "C68",
   "status": "partial",
   "theorems": [
    "C68_request",
    "C68_response",
    "C68_body",
    "C68_blank_refuted",
    "C68_spoof_refuted"
   ],
   "note": "Proved for every message the API serialises and, for the body, for all bytes. For received bytes the parser and the capture can disagree (C68_blank_refuted, C68_spoof_refuted)."
  },
  {
   "property": "C69",
   "status": "proved",
   "theorems": [
    "C69_server_invite_deadline"
   ],
   "note": ""
  },
  {
   "property": "C70",
   "status": "proved",
   "theorems": [
    "C70_client_deadline"
   ],
   "note": ""
  },
  {
   "property": "C71",
   "status": "proved",
   "theorems": [
    "C71_remaining"
   ],
   "note": ""
  },
  {
   "property": "C72",
   "status": "partial",
   "theorems": [
    "C72_retry_after_partial",
    "C72_retry_after_refuted"
   ],
   "note": "announced wait is rounded down to whole seconds; one extra second suffices"
  },
  {
   "property": "C73",
   "status": "proved",
   "theorems": [
    "C73_fresh_nonce"
   ],
   "note": "Random nonces of the history are assumed distinct."
  },
  {
   "property": "C74",
   "status": "partial",
   "theorems": [
    "C74_reuse_window_partial",
    "C74_refuted"
   ],
   "note": "Refuted for the nonce count zero, which the window check skips."
  },
  {
   "property": "C75",
   "status": "proved",
   "theorems": [
    "C75_attempts_limited"
   ],
   "note": "Windows up to the limiter's idle timeout, as in C12."
  },
  {
   "property": "C76",
   "status": "proved",
   "theorems": [
    "C76_client_invite",
    "C76_client_non_invite",
    "C76_server_non_invite",
    "C76_server_invite"
   ],
   "note": ""
  },
  {
   "property": "C77",
   "status": "proved",
   "theorems": [
    "C77_client_invite_once",
    "C77_client_non_invite_once",
    "C77_server_non_invite_once",
    "C77_server_invite_once",
    "C77_client_invite_clean",
    "C77_client_non_invite_clean",
    "C77_server_non_invite_clean",
    "C77_server_invite_clean"
   ],
   "note": "For the INVITE server a second final response after the ACK is the C07 finding; Timer I may then still be armed in Completed, where its expiry is ignored."
  },
  {
   "property": "C78",
   "status": "proved",
   "theorems": [
    "C78_client_invite",
    "C78_client_non_invite",
    "C78_server_non_invite",
    "C78_server_invite"
   ],
   "note": "The INVITE server case excludes a Timer I left over after the user submitted a second final response (C07 finding)."
  },
  {
   "property": "C79",
   "status": "proved",
   "theorems": [
    "C79_no_control",
    "C79_limits"
   ],
   "note": "tel: URIs and absolute URIs of other schemes are not covered."
  },
  {
   "property": "C80",
   "status": "partial",
   "theorems": [
    "C80_find",
    "C80_mirror",
    "C80_tag",
    "C80_quoted_refuted",
    "C80_matches"
   ],
   "note": "Matching proved; the tag extraction is right for values whose address part has no false tag parameter and refuted for quoted display names."
  },
  {
   "property": "C81",
   "status": "partial",
   "theorems": [
    "C81_ascii_partial",
    "C81_panic_refuted",
    "C81_refresh_refuted",
    "C81_refresh_partial"
   ],
   "note": "Refuted: non-ASCII parameter text and 32-bit truncated intervals panic. Proved for ASCII From/To and intervals up to 86400 s."
  },
  {
   "property": "C82",
   "status": "partial",
   "theorems": [
    "C82_consecutive",
    "C82_range_refuted"
   ],
   "note": "Consecutive numbers proved; C82_range_refuted shows a number past 2^31-1 that no RSeq header accepts."
  },
  {
   "property": "C83",
   "status": "partial",
   "theorems": [
    "C83_one_refresher",
    "C83_named",
    "C83_case_refuted"
   ],
   "note": "Exactly one refresher for every parameter text; the parameter is not read case-insensitively (C83_case_refuted)."
  },
  {
   "property": "C84",
   "status": "proved",
   "theorems": [
    "C84_se_roundtrip",
    "C84_min_se_roundtrip",
    "C84_range"
   ],
   "note": ""
  },
  {
   "property": "C85",
   "status": "proved",
   "theorems": [
    "C85_other_addresses",
    "C85_other_contacts"
   ],
   "note": ""
  },
  {
   "property": "C86",
   "status": "proved",
   "theorems": [
    "C86_response_lists"
   ],
   "note": ""
  },
  {
   "property": "C87",
   "status": "proved",
   "theorems": [
    "C87_effect"
   ],
   "note": ""
  },
  {
   "property": "C88",
   "status": "partial",
   "theorems": [
    "C38_sip_same_partial",
    "C88_ipv6_refuted"
   ],
   "note": "injective for hosts that are not IPv6 literals; refuted for those"
  },
  {
   "property": "C89",
   "status": "proved",
   "theorems": [
    "C89_display_name"
   ],
   "note": ""
  },
  {
   "property": "C90",
   "status": "proved",
   "theorems": [
    "C90_new_dialog"
   ],
   "note": ""
  },
  {
   "property": "C91",
   "status": "proved",
   "theorems": [
    "C91_builders"
   ],
   "note": ""
  },
  {
   "property": "C92",
   "status": "proved",
   "theorems": [
    "C92_client_counts"
   ],
   "note": ""
  },
  {
   "property": "C93",
   "status": "proved",
   "theorems": [
    "C93_provenance",
    "C93_origin",
    "C93_provisional",
    "C93_sequential"
   ],
   "note": "All interleavings."
  },
  {
   "property": "C94",
   "status": "partial",
   "theorems": [
    "C94_answered",
    "C94_reuse_refuted",
    "C94_timer",
    "C94_error",
    "C94_timer_once",
    "C94_made_up"
   ],
   "note": "All interleavings, for distinct branch ids; refuted if a branch id is added twice."
  },
  {
   "property": "C95",
   "status": "partial",
   "theorems": [
    "C95_match_partial",
    "C95_pending_partial",
    "C95_6xx_refuted",
    "C95_again_refuted",
    "C95_vias_refuted",
    "C95_branch"
   ],
   "note": "Proved for 2xx: exactly the pending branches, one CANCEL each, matching. Refuted: no CANCEL after a 6xx, repeated CANCELs after a second 2xx, upstream Vias kept in the CANCEL."
  },
  {
   "property": "C96",
   "status": "partial",
   "theorems": [
    "C96_partial",
    "C96_via_refuted",
    "C96_size_refuted",
    "C96_branch"
   ],
   "note": "Refuted for a non-ASCII Via parameter and for a request with 200 header lines; proved for ASCII Via and at most 197 lines."
  },
  {
   "property": "C97",
   "status": "partial",
   "theorems": [
    "C97_refuted",
    "C97_partial",
    "C97_kind",
    "C97_next_hop"
   ],
   "note": "The Request-URI is overwritten by the loose route."
  },
  {
   "property": "C98",
   "status": "partial",
   "theorems": [
    "C98_sequential",
    "C98_parallel_partial",
    "C98_parallel_refuted",
    "C98_ids",
    "C98_none"
   ],
   "note": "Sequential choice proved; parallel proved up to 50 targets; refuted for 51 to 100, where forking fails."
  },
  {
   "property": "C99",
   "status": "partial",
   "theorems": [
    "C99_echo_partial",
    "C99_vias_refuted",
    "C99_tag_refuted"
   ],
   "note": "Proved: first Via, From, Call-ID, CSeq and a tagged To are present. False: only the first of several Via lines is copied, and a To tag written with a space or in upper case gets a second tag."
  }
 ]
}