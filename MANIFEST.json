{
 "claims": [
  {
   "property": "C01",
   "status": "proved",
   "theorems": [
    "C01_writer_emits_wire_format",
    "C01_writer_succeeds",
    "C01_parse_consumes_exactly_the_frame",
    "C01_frames_round_trip"
   ],
   "note": "Writer emits the wire format; parser in any reachable idle state returns exactly the frame for every chunking."
  },
  {
   "property": "C02",
   "status": "proved",
   "theorems": [
    "C02_chunk_independence"
   ],
   "note": "For every reachable parser not holding a frame."
  },
  {
   "property": "C03",
   "status": "proved",
   "theorems": [
    "C03_frames_come_from_the_stream"
   ],
   "note": "For all byte streams, from a new parser."
  },
  {
   "property": "C04",
   "status": "proved",
   "theorems": [
    "C04_parse_terminates_safely"
   ],
   "note": "Explicit UB outcome for out-of-bounds access and out-of-fuel for divergence; neither is reachable."
  },
  {
   "property": "C05",
   "status": "partial",
   "theorems": [
    "C05_resync_after_noise_partial",
    "C05_resync_after_quiet_gap_partial",
    "C05_resync_after_corrupted_body_partial",
    "C05_resync_refuted"
   ],
   "note": "False as stated (C05_resync_refuted: noise byte 07 before the frame). Proved: resynchronisation after sync-free noise, after a quiet gap from any state, after a corrupted body."
  },
  {
   "property": "C06",
   "status": "proved",
   "theorems": [
    "C06_crc_is_polynomial_remainder",
    "C06_remainder_unique",
    "C06_crc_detects_bursts",
    "C06_crc_detects_odd_errors",
    "C06_crc_detects_double_errors",
    "C06_crc_detects_header_errors",
    "C06_burst_in_body_is_dropped"
   ],
   "note": "Generator 0x1F4ACFB13; every burst of at most 32 bits, every odd error and every double error within the protected span, for sections of any length (bursts, odd) are detected."
  },
  {
   "property": "C07",
   "status": "proved",
   "theorems": [
    "C07_address_filtering",
    "C07_transmit_addresses"
   ],
   "note": "All histories of open/close/ready/arrival/read/transmit."
  },
  {
   "property": "C08",
   "status": "partial",
   "theorems": [
    "C08_progress_partial",
    "C08_end_to_end_partial",
    "C08_progress_refuted"
   ],
   "note": "False as stated: C08_progress_refuted proves for every foreign or empty frame and every continuation without close that nothing is delivered. Progress proved when every frame is for this station and non-empty, for all schedules without close."
  },
  {
   "property": "C09",
   "status": "partial",
   "theorems": [
    "C09_isolation_when_drained_partial",
    "C09_isolation_refuted_stale_delivery",
    "C09_isolation_refuted_lost_frame"
   ],
   "note": "False as stated (two witnesses). Proved when the layer above drained the link layer before the close."
  },
  {
   "property": "C10",
   "status": "proved",
   "theorems": [
    "C10_request_round_trip",
    "C10_reply_round_trip",
    "C10_error_round_trip",
    "C10_session_data_round_trip",
    "C10_body_round_trip",
    "C10_envelope_round_trip",
    "C10_chain_round_trip",
    "C10_container_round_trip"
   ],
   "note": "Round trip for all eight message/file kinds."
  },
  {
   "property": "C11",
   "status": "proved",
   "theorems": [
    "C11_request_parse_iff_wire",
    "C11_request_no_two_encodings",
    "C11_reply_parse_iff_wire",
    "C11_reply_no_two_encodings",
    "C11_error_parse_iff_wire",
    "C11_error_no_two_encodings",
    "C11_session_data_parse_iff_wire",
    "C11_session_data_no_two_encodings",
    "C11_body_parse_iff_wire",
    "C11_body_no_two_encodings",
    "C11_envelope_parse_iff_wire",
    "C11_envelope_no_two_encodings",
    "C11_chain_parse_iff_wire",
    "C11_chain_no_two_encodings",
    "C11_container_parse_iff_wire",
    "C11_container_no_two_encodings"
   ],
   "note": "Accepted byte strings are exactly the wire encodings of the specification, one per value."
  },
  {
   "property": "C12",
   "status": "proved",
   "theorems": [
    "C12_vlength_read_iff",
    "C12_vlength_write",
    "C12_vlength_shortest"
   ],
   "note": "All 32-bit lengths."
  },
  {
   "property": "C13",
   "status": "proved",
   "theorems": [
    "C13_request_write_size",
    "C13_request_rejects_trailing",
    "C13_request_rejects_other_functions",
    "C13_reply_write_size",
    "C13_reply_rejects_trailing",
    "C13_reply_rejects_other_functions",
    "C13_error_write_size",
    "C13_error_rejects_trailing",
    "C13_error_rejects_other_functions",
    "C13_session_data_write_size",
    "C13_session_data_rejects_trailing",
    "C13_session_data_rejects_other_functions",
    "C13_body_write_size",
    "C13_body_rejects_trailing",
    "C13_envelope_write_size",
    "C13_envelope_rejects_trailing",
    "C13_chain_write_size",
    "C13_chain_rejects_trailing",
    "C13_container_write_size",
    "C13_container_rejects_trailing"
   ],
   "note": "Follows from the exact characterisation of accepted inputs plus write-size theorems."
  },
  {
   "property": "C14",
   "status": "proved",
   "theorems": [
    "C14_endpoint_no_replay",
    "C14_nonces_increase",
    "C14_no_data_replay",
    "C14_auth_replay_at_session_level_refuted"
   ],
   "note": "Endpoint level (C14_endpoint_no_replay): for every environment the nonces accepted in one session start at zero, strictly increase (by one in strict mode) and respect the maximum. Session level: same for data; the Session API alone would accept the authentication message repeatedly while its nonce is zero (C14_auth_replay_at_session_level_refuted), which the endpoint never lets happen."
  },
  {
   "property": "C15",
   "status": "proved",
   "theorems": [
    "C15_endpoint_sealed",
    "C15_endpoint_no_reuse",
    "C15_endpoint_unique",
    "C15_nonces_in_sequence",
    "C15_no_reuse",
    "C15_protected_with_own_nonce",
    "C15_gcm_iv_distinct",
    "C15_failed_transmission_no_effect",
    "C15_stops_at_maximum"
   ],
   "note": "Session level: every interleaving of calls on an initialized session, exact bytes of each frame and AES-GCM initialization vectors. Endpoint level: for every environment that supplies values of the C++ types, each data frame has as nonce the number of messages sent before under the same keys (C15_endpoint_sealed, C15_endpoint_no_reuse); if the handshakes derive different keys, no key and nonce pair is used twice in the life of the endpoint (C15_endpoint_unique)."
  },
  {
   "property": "C16",
   "status": "proved",
   "theorems": [
    "C16_session_lifetime",
    "C16_valid_until"
   ],
   "note": "All clocks; the u32 conversion of the valid-until time is shown not to wrap."
  },
  {
   "property": "C17",
   "status": "partial",
   "theorems": [
    "C17_rejected_no_effect_partial",
    "C17_empty_message_refuted"
   ],
   "note": "True for all rejections except authenticated messages without user data, which use up their nonce although they are rejected (counterexample proved)."
  },
  {
   "property": "C18",
   "status": "proved",
   "theorems": [
    "C18_channel"
   ],
   "note": "Unforgeability of the AEAD is a hypothesis of the theorem, stated on the frames actually sent."
  },
  {
   "property": "C19",
   "status": "proved",
   "theorems": [
    "C19_fragmentation"
   ],
   "note": "At the session API."
  },
  {
   "property": "C20",
   "status": "proved",
   "theorems": [
    "C20_always_fits",
    "C20_smaller_payload_refuted"
   ],
   "note": "Threshold 1051 bytes is shown tight; the library's stacks use 4092."
  },
  {
   "property": "C21",
   "status": "partial",
   "theorems": [
    "C21_mac_input_injective",
    "C21_encrypt_decrypt",
    "C21_hmac_opens_iff",
    "C21_hmac_modified_rejected",
    "C21_gcm_tag_extension_refuted"
   ],
   "note": "Injectivity, round trip and rejection proved for HMAC mode; AES-GCM mode accepts tags with extra trailing bytes (proved)."
  },
  {
   "property": "C22",
   "status": "proved",
   "theorems": [
    "C22_key_agreement",
    "C22_completes"
   ],
   "note": "All handshake modes. C22_completes shows the exchange exists under explicit conditions; an instance for each of the four configurations."
  },
  {
   "property": "C23",
   "status": "proved",
   "theorems": [
    "C23_transcript_binding",
    "C23_no_downgrade"
   ],
   "note": "Collision resistance is a hypothesis on the explicit inputs of the two computations."
  },
  {
   "property": "C24",
   "status": "proved",
   "theorems": [
    "C24_unauthenticated_message",
    "C24_established_session_kept"
   ],
   "note": "Per message, in any state, and over whole runs."
  },
  {
   "property": "C25",
   "status": "partial",
   "theorems": [
    "C25_justified",
    "C25_only_authenticated_data_partial"
   ],
   "note": "Opening only on an authenticated session: for every environment. Data read is the payload accepted last: for applications that only transmit inside the \"open\" notification; without that it is false (C34_read_in_open_refuted)."
  },
  {
   "property": "C26",
   "status": "proved",
   "theorems": [
    "C26_alternation",
    "C26_open_before_everything"
   ],
   "note": "For every environment, re-entrant calls included."
  },
  {
   "property": "C27",
   "status": "partial",
   "theorems": [
    "C27_alive_partial",
    "C27_response_timeout_partial",
    "C27_retry_partial",
    "C27_timer_refuted"
   ],
   "note": "Proved in an environment where, until the handshake is completed inside the notification of the data that came with it, no further message is read and the connection is not closed. False otherwise: C27_timer_refuted (an application reading in a loop leaves the retry timer running in the idle state, which later starts a needless handshake)."
  },
  {
   "property": "C28",
   "status": "partial",
   "theorems": [
    "C28_wiped_partial",
    "C28_nothing_after_close_partial",
    "C28_closed_state_partial",
    "C28_close_in_open_refuted"
   ],
   "note": "Proved for applications whose callbacks only transmit while \"open\" is being notified. False otherwise: C28_close_in_open_refuted (close inside the open notification keeps the payload of the closed connection and stops all later reception)."
  },
  {
   "property": "C29",
   "status": "proved",
   "theorems": [
    "C29_accepted_iff_certified",
    "C29_chain_bounds",
    "C29_handler_returns_certified_key",
    "C29_rejection_reason",
    "C29_presented_chain"
   ],
   "note": "Exact characterisation of accepted chains, of the returned key, and of the error of a rejected chain."
  },
  {
   "property": "C30",
   "status": "partial",
   "theorems": [
    "C30_decision_independent_of_time",
    "C30_expired_rejected_refuted"
   ],
   "note": "False of the code: C30_expired_rejected_refuted; proved that the decision does not depend on the time at all."
  },
  {
   "property": "C31",
   "status": "partial",
   "theorems": [
    "C31_round_trip",
    "C31_chunking",
    "C31_delivered_frames_occur",
    "C31_complete",
    "C31_resynchronizes_partial",
    "C31_defined_partial",
    "C31_stops_after_error",
    "C31_overlap_refuted",
    "C31_lost_frame_refuted",
    "C31_never_synchronizes_refuted",
    "C31_status_refuted"
   ],
   "note": "Round trip, independence of the partition, and occurrence of every delivered frame are proved for all streams. Partial: with ser4cpp's copy_from (memcpy) the parser copies overlapping regions unless the stream is aligned (C31_overlap_refuted), frames can be lost after noise that looks like a start (C31_lost_frame_refuted) and for ever (C31_never_synchronizes_refuted), at most one is lost when frames contain the start bytes at their start only, and the writer drops the status."
  },
  {
   "property": "C32",
   "status": "partial",
   "theorems": [
    "C32_bounded",
    "C32_single_use",
    "C32_right_key",
    "C32_highest",
    "C32_find",
    "C32_backward_partial",
    "C32_forward",
    "C32_backward_refuted"
   ],
   "note": "Bound, single use, right key, highest identifier, exact effect of every operation proved for all histories. Refuted as worded: backwards is judged against the highest identifier held, not received (C32_backward_refuted)."
  },
  {
   "property": "C33",
   "status": "partial",
   "theorems": [
    "C33_chunks",
    "C33_complete",
    "C33_progress_partial",
    "C33_stale_data_refuted",
    "C33_blocked_refuted",
    "C33_lost_in_handshake_refuted",
    "C33_ready_once",
    "C33_empty_refuted"
   ],
   "note": "Chunks are exactly the accepted buffer, in order; progress as long as no transmission fails. False as stated: C33_stale_data_refuted (data of a failed session is sent in the next one), C33_blocked_refuted (transmission blocked in the new session), C33_lost_in_handshake_refuted (data sent in an authentication message that is never answered). Ready is told at most once per accepted buffer and only for non-empty ones, for every environment (C33_ready_once); an empty buffer is accepted and never answered (C33_empty_refuted)."
  },
  {
   "property": "C34",
   "status": "partial",
   "theorems": [
    "C34_delivery_partial",
    "C34_stack_flag_refuted",
    "C34_read_in_open_refuted",
    "C34_deaf_refuted"
   ],
   "note": "Proved for an application bound to the layer itself whose callbacks only transmit while \"open\" is being notified. False otherwise: C34_stack_flag_refuted (stack object keeps its flag over a close), C34_read_in_open_refuted (dangling slice / mixed bytes), C34_deaf_refuted (unread payload after a session failure stops reception for good)."
  },
  {
   "property": "C35",
   "status": "proved",
   "theorems": [
    "C35_endpoint_request",
    "C35_endpoint_no_handshake",
    "C35_endpoint_silent",
    "C35_decision",
    "C35_decision_unique",
    "C35_mode_not_checked_refuted"
   ],
   "note": "The table is HandshakeSpec.decision, shown to be single valued. C35_mode_not_checked_refuted records that the shared-secret and QKD responders do not check the requested mode."
  },
  {
   "property": "C36",
   "status": "partial",
   "theorems": [
    "C36_responder_safe_partial",
    "C36_initiator_safe_partial",
    "C36_short_ephemeral_refuted",
    "C36_short_certificate_key_refuted",
    "C36_endpoint_defined_partial",
    "C36_stack_defined_partial",
    "C36_initiator_stack_defined",
    "C36_responder_stack_defined",
    "C36_two_messages_refuted",
    "C36_one_reply_refuted",
    "C36_format_safe",
    "C36_validate_safe_partial",
    "C36_short_tag_refuted"
   ],
   "note": "False of the code in three places, each proved: AES-GCM tags shorter than 16 bytes, reply ephemeral keys shorter than 32 bytes (public key initiator), certificate keys shorter than 32 bytes. Proved safe otherwise, for all executions of endpoints and complete stacks (C36_endpoint_defined_partial, C36_stack_defined_partial: execution is defined unless such a message was taken before). Two fixed messages crash every shared secret responder, seven bytes every preshared public key initiator, without any key. HMAC initiators are proved safe for all byte streams without exception."
  },
  {
   "property": "C37",
   "status": "proved",
   "theorems": [
    "C37_hkdf_is_rfc5869",
    "C37_initiator_keys",
    "C37_responder_keys"
   ],
   "note": "Equality with a transcription of RFC 5869, and where the keys of both sides come from."
  },
  {
   "property": "C38",
   "status": "proved",
   "theorems": [
    "C38_secure_equals"
   ],
   "note": ""
  },
  {
   "property": "C39",
   "status": "partial",
   "theorems": [
    "C39_days_partial",
    "C39_overflow_refuted",
    "C39_wrapped_refuted"
   ],
   "note": "Exact up to 24 days (C39_days_partial). False of the code from 25 days on: signed overflow (C39_overflow_refuted, for every such number of days); with wrapping arithmetic the end time is wrong, at most 24.86 days ahead, and in the past for 30 days (C39_wrapped_refuted)."
  },
  {
   "property": "C40",
   "status": "partial",
   "theorems": [
    "C40_limit",
    "C40_once",
    "C40_room",
    "C40_oldest_partial",
    "C40_undefined",
    "C40_defined_partial",
    "C40_completions",
    "C40_removed_silent",
    "C40_removed_destroyed",
    "C40_error_closes",
    "C40_isolation",
    "C40_evict_refuted",
    "C40_destroyed_refuted",
    "C40_stuck_refuted",
    "C40_accept_refuted"
   ],
   "note": "Proved for every schedule and every behaviour of the stacks: limit, identities, room, isolation, lifetime of sessions, and an exact characterisation of the undefined behaviour (C40_undefined). Partial: the oldest session is replaced only while its handshake has not succeeded (C40_evict_refuted: otherwise an invalid iterator is erased); C40_destroyed_refuted: use after free on a failure of the protocol side; C40_stuck_refuted: half closed sessions; C40_accept_refuted: one failed accept ends the listener."
  },
  {
   "property": "C41",
   "status": "proved",
   "theorems": [
    "C41_one_transmission",
    "C41_busy_until_reported"
   ],
   "note": "For a lower layer that keeps its promises and applications that call from their notifications only the endpoint or close."
  },
  {
   "property": "C42",
   "status": "partial",
   "theorems": [
    "C42_one_subscriber",
    "C42_single_use",
    "C42_same_key",
    "C42_defined_partial",
    "C42_defined_refuted",
    "C42_starved_refuted",
    "C42_stores_diverge_refuted"
   ],
   "note": "Routing, single use over all subscribers and agreement of two proxies proved for all histories. Refuted: zero subscribers divide by zero at the first key, a subscriber number no key maps to is accepted and starved, the stores of the two ends can diverge so that an offered key is unknown to the other end."
  },
  {
   "property": "C43",
   "status": "partial",
   "theorems": [
    "C43_create",
    "C43_create_only",
    "C43_short_key_refuted",
    "C43_issued",
    "C43_usable",
    "C43_peer",
    "C43_append",
    "C43_append_extends",
    "C43_defined_partial",
    "C43_two_levels_refuted",
    "C43_unusable_refuted",
    "C43_outputs_only",
    "C43_failed_partial",
    "C43_truncated_refuted",
    "C43_keys",
    "C43_same_path_refuted",
    "C43_end_to_end",
    "C43_same_days_refuted"
   ],
   "note": "Creation, usability, appending and effects on files proved for all files, keys and disk faults. False of the code: chains of more than two certificates cannot be built by any sequence of commands (C43_two_levels_refuted), secret key files shorter than 64 bytes are read out of bounds (C43_short_key_refuted), unusable certificates are reported as made (C43_unusable_refuted), a failing write destroys an input that is also the output (C43_truncated_refuted), the same path for both keys loses the secret key (C43_same_path_refuted), a certificate made later for the same number of days as its authority's is refused (C43_same_days_refuted)."
  },
  {
   "property": "C44",
   "status": "proved",
   "theorems": [
    "C44_log",
    "C44_source",
    "C44_delivery",
    "C44_read",
    "C44_origin"
   ],
   "note": "Two runs of the endpoint model linked only by the assumption that a message the receiver got and that opens under the key of a session it established is one the sender sealed under this key (unforged), and that the sender's handshakes derived different keys (fresh_keys). The part about what is read needs an application that keeps the contract of the interfaces (reader_ok; opens_quietly for C44_origin); C44_delivery, about what is accepted, needs nothing from the receiver's environment. Order across sessions is not stated."
  },
  {
   "property": "C45",
   "status": "partial",
   "theorems": [
    "C45_ports",
    "C45_undefined",
    "C45_defined_partial",
    "C45_restart_partial",
    "C45_restart_only",
    "C45_replaced_harmless",
    "C45_replaced_destroyed",
    "C45_raw_error_refuted",
    "C45_dead_refuted",
    "C45_first_error_ignored"
   ],
   "note": "Ports, restart after a failure on the protected side of an established session, isolation and destruction of replaced sessions proved for all schedules (C45_ports, C45_restart_partial, C45_restart_only, C45_replaced_harmless, C45_replaced_destroyed). The situations in which the process fails are characterised exactly (C45_undefined) and without them no history fails (C45_defined_partial). False of the code: a failure on the unprotected side of a working session ends the process, port in use or use after free (C45_raw_error_refuted); a failure on the protected side before the handshake succeeded leaves the proxy dead for ever (C45_dead_refuted); the first failure of an operation is ignored and the operation is not started again (C45_first_error_ignored)."
  },
  {
   "property": "C46",
   "status": "partial",
   "theorems": [
    "C46_messages",
    "C46_bus",
    "C46_deaf_refuted",
    "C46_frames",
    "C46_in_order",
    "C46_one_transmission",
    "C46_refines",
    "C46_no_replay",
    "C46_listening",
    "C46_origin",
    "C46_delivery",
    "C46_closed_refuted",
    "C46_stale_refuted",
    "C46_first_lost_refuted",
    "C46_taken",
    "C46_all_taken"
   ],
   "note": "Proved for all byte streams, partitions, schedules and configurations: C46_messages, C46_bus, C46_frames, C46_in_order, C46_one_transmission, C46_refines (every trace of the stack is a trace of the crypto layer over a lower layer that returns bytes), C46_no_replay, C46_origin, C46_delivery; C46_taken (after a notification, once everything is at rest, every frame that arrived completely was taken) and C46_all_taken for two stacks on a line; C46_listening if the connection is closed from outside the notifications. C46_origin and C46_delivery assume, as C44, that messages are not forged and that handshakes derive different keys. False of the code: after a frame for another station, or an empty one, nothing is received until the connection is closed (C46_deaf_refuted, for all such lines); a message can be taken and answered on a closed connection (C46_closed_refuted), bytes of an earlier connection are processed on the next one (C46_stale_refuted), and the first message of the next connection is lost (C46_first_lost_refuted). The transport's promise about readiness is an assumption of C46_one_transmission."
  },
  {
   "property": "C47",
   "status": "partial",
   "theorems": [
    "C47_accepted",
    "C47_unambiguous",
    "C47_defined_partial",
    "C47_registry",
    "C47_stack",
    "C47_settings",
    "C47_pair",
    "C47_tool_keys",
    "C47_launch",
    "C47_launch_defined_partial",
    "C47_overflow_refuted",
    "C47_certificate_algorithm_refuted",
    "C47_session_time_refuted",
    "C47_baud_refuted",
    "C47_trigger_refuted",
    "C47_pad_refuted",
    "C47_payload_refuted",
    "C47_subscriber_refuted",
    "C47_no_subscribers_refuted",
    "C47_late_refuted",
    "C47_key_pair_refuted",
    "C47_chain_refuted"
   ],
   "note": "Proved for all files: C47_accepted (reading succeeds with a list of sessions exactly when the file states it, in the sense of ConfigSpec.says), C47_unambiguous, C47_registry, C47_stack (an accepted file yields stacks that satisfy the hypotheses of the endpoint and stack theorems), C47_settings, C47_pair (two matching files: the handshake completes with matching keys, the configured algorithm and limits; for chains short enough to be sent), C47_tool_keys, C47_launch (exact conditions under which the proxy runs). C47_defined_partial and C47_launch_defined_partial: no undefined behaviour, provided the durations in the file fit into 64-bit nanoseconds (and no session uses certificates). False of the code: a duration that does not fit overflows (C47_overflow_refuted); with certificates the configured algorithm is ignored (C47_certificate_algorithm_refuted); the names the shipped example files use for the session duration, its trigger and the baud rate are not looked at (C47_session_time_refuted, C47_baud_refuted); max_payload_size does not limit what is sent, and a smaller one makes a larger received message be decrypted past the buffer (C47_payload_refuted); accepted although useless: triggers above the limits and negative timeouts (C47_trigger_refuted), a time to live longer than the session (C47_pad_refuted), a subscriber the source never serves (C47_subscriber_refuted), a source without subscribers (C47_no_subscribers_refuted), a public key that is not the private key's (C47_key_pair_refuted), certificate files that hold none (C47_late_refuted: the first connection ends the process), a chain too long to be sent (C47_chain_refuted). The YAML text itself is parsed by yaml-cpp and not modelled."
  },
  {
   "property": "C48",
   "status": "proved",
   "theorems": [
    "C48_prefix",
    "C48_all_delivered",
    "C48_never_stuck",
    "C48_inevitable"
   ],
   "note": "C48_prefix, C48_all_delivered (safety), C48_never_stuck and C48_inevitable (every schedule of the remaining steps delivers everything: well-founded, no fairness assumption) for all compatible pairs; C48_instance and C48_inevitable_instance: concrete runs of all four kinds of configuration to such states. One session: no timer expires, the connection stays open, the conversation ends before the limits of the session; what happens otherwise is the subject of C27, C28, C33 and C44. C48_inevitable is for finite conversations: the applications offer no more data while the rest is delivered (they may read at any time). The line carries messages; frames over byte streams are C46."
  },
  {
   "property": "C49",
   "status": "proved",
   "theorems": [
    "C49_prefix",
    "C49_all_delivered",
    "C49_buffers",
    "C49_inevitable"
   ],
   "note": "C49_prefix, C49_all_delivered, C49_buffers (safety) and C49_inevitable (every schedule gets everything through) for all compatible pairs of stacks, all client data, all read sizes; C49_instance and C49_inevitable_instance: all four kinds of configuration. One session: the sockets stay open, no operation on them fails, and the protected line is reliable (as in C48); connection failures are C40 and C45, the bytes on the protected connection C46. C49_inevitable is for what the clients have sent: they send no more while the rest gets through."
  },
  {
   "property": "C50",
   "status": "partial",
   "theorems": [
    "C50_prefix_partial",
    "C50_all_delivered_partial",
    "C50_never_stuck_partial",
    "C50_inevitable_partial",
    "C50_stack_flag_refuted"
   ],
   "note": "Proved for applications bound to the crypto layer, and for applications that read through the stack object and whose last read before the new connection returned nothing. False otherwise: C50_stack_flag_refuted (the flag of the stack object survives the close and the first data of the new connection is lost). Environment of the past: [fair] (lower layer keeps ILowerLayer.h, the application only transmits while 'open' is notified and does not close before the handshake is completed; as in C27). On the new connection no timer expires, as in C48. Non-vacuity: C50_instance, C50_inevitable_instance, with sessions that had data in both directions and a transmission in progress at the close."
  },
  {
   "property": "C51",
   "status": "partial",
   "theorems": [
    "C51_written",
    "C51_all_written",
    "C51_arguments",
    "C51_read_back",
    "C51_lines",
    "C51_ids_increase",
    "C51_on_time",
    "C51_clock_back_refuted",
    "C51_emulators_agree",
    "C51_starved_refuted",
    "C51_served_partial",
    "C51_pause",
    "C51_rate_refuted",
    "C51_too_fast_refuted",
    "C51_no_port_refuted"
   ],
   "note": "Proved except the last sentence, which is false: C51_rate_refuted and C51_pause (the emulator adds the time of the writing to the period instead of subtracting it), C51_too_fast_refuted (the period is cut to milliseconds), C51_clock_back_refuted (a clock set back makes the emulator send the same key again, and a proxy hands it out again), C51_starved_refuted and C51_second_subscriber_refuted (all identifiers are multiples of the period, so with 2 subscribers and a period of 1000 ms the second one never gets a key; C51_served_partial: without a common divisor everybody is served), C51_no_port_refuted (keys from the standard input without any port: success, nothing written). C51_ids_increase assumes for the time-based mode that the clock is not set back; clocks between 1970 and 2262. SHA-256 is a parameter (32 bytes). Non-vacuity: C51_instance_*."
  },
  {
   "property": "C52",
   "status": "partial",
   "theorems": [
    "C52_prefix_partial",
    "C52_all_delivered_partial",
    "C52_inevitable_partial",
    "C52_busy_renewal_refuted"
   ],
   "note": "Proved with the restriction that the applications offer no data while a renewal is under way (they may read, and what was offered before the last session is still delivered; the timer expires while nothing is left to do): C52_prefix_partial, C52_all_delivered_partial (includes that the session in use is a new one and the timer runs again), C52_inevitable_partial, for any number of renewals in a row. Without the restriction the claim is false: C52_busy_renewal_refuted (data offered by the application of the initiator between its authentication message and the answer is sent under the old session and dropped by the responder, which uses the new one already; nobody is told). C52_instance, C52_inevitable_instance: concrete runs of all four kinds of configuration with data before and after a renewal, with fresh random numbers and keys. The era may also begin with an open connection after any history (C53)."
  },
  {
   "property": "C53",
   "status": "proved",
   "theorems": [
    "C53_recovers",
    "C53_afterwards",
    "C53_without_session"
   ],
   "note": "C53_recovers (a timer is running; inevitably a new session), C53_afterwards (prefix, delivery and the new session afterwards, with any number of renewals), C53_without_session (data at any time if neither side has a session). Conditions, in the statements: no data is waiting to be sent or read, no transmission is under way and no further handshake was already asked for (`undisturbed`); the configuration was not found to be bad (a known defect: C27_retry_partial, C34); while one side still has an old session the applications offer no data until the new one is agreed on, as in C52 (C52_busy_renewal_refuted shows why); the steps are fast enough. Nothing is assumed about the history of the two sides except that the layers around them keep their promises (RecoverSpec `fair`). C53_recovers_instance, C53_without_session_instance: concrete histories of all kinds of configuration where the request or the answer of the responder was lost."
  },
  {
   "property": "C54",
   "status": "proved",
   "theorems": [
    "C54_shows",
    "C54_unambiguous",
    "C54_determines",
    "C54_created",
    "C54_messages"
   ],
   "note": "C54_shows (complete exactly when there is something well-formed, and then as the grammar of PrintSpec says), C54_unambiguous and C54_determines (one way to read the text; equal texts, equal files), C54_created (what is shown after creation), C54_messages (log items determine the message; the items given to the printer, as their formatting is done by log4cpp, which is not in the repository). The grammar (decimal numbers, hexadecimal lines of at most 16 bytes, numbered certificates, numbered extensions) uses nothing of the model. Texts are compared for the same file name, as the name is arbitrary text. C54_key_instance and C54_chain_instance: whole texts computed by the model for a key and for two certificates with extensions."
  },
  {
   "property": "C55",
   "status": "partial",
   "theorems": [
    "C55_requested",
    "C55_show",
    "C55_nothing",
    "C55_outputs_only",
    "C55_certificate",
    "C55_ends_partial",
    "C55_hangs_refuted",
    "C55_level_refuted",
    "C55_days_refuted",
    "C55_exit_refuted"
   ],
   "note": "Proved except the last sentence: C55_requested, C55_show, C55_nothing, C55_outputs_only, C55_certificate (from the command line to the certificate and the text of C54), C55_ends_partial (the program ends unless the level is asked for; it ends if a level is typed). The last sentence is false: C55_hangs_refuted (the input ends or a number of 2^32 or more is typed when the level is asked for, or the days were not a number: std::cin stays failed and the loop never ends), C55_level_refuted (a word typed as the level is taken for 0: an end-entity certificate is signed), C55_days_refuted (a word, or no input, instead of the days: a certificate valid for no time is signed), C55_exit_refuted (the exit status is always 0). Not modelled: argagg (the command line is given as parsed), the text written to std::cerr; std::cin >> unsigned as in libstdc++. C55_certificate_instance, C55_defects_instance, C55_show_instance: concrete runs."
  },
  {
   "property": "C56",
   "status": "partial",
   "theorems": [
    "C56_pipe",
    "C56_comes_out",
    "C56_stacks",
    "C56_frames_arrive",
    "C56_misaddressed",
    "C56_shipped_secret",
    "C56_shipped_preshared_udp",
    "C56_shipped_preshared_tcp_refuted",
    "C56_shipped_qkd_refuted",
    "C56_shipped_ignored_refuted",
    "C56_quickstart"
   ],
   "note": "Proved except for some of the shipped files: C56_pipe, C56_comes_out and C56_stacks (for every two files that fit together, any settings, over the models of C47, C48 and C49), C56_frames_arrive and C56_misaddressed (over TCP, through the link layer, in any pieces), C56_shipped_secret (the files of config/proxy/shared_secret, TCP and UDP), C56_shipped_preshared_udp, C56_quickstart (from the key generator on, for every secret). False for the others: C56_shipped_preshared_tcp_refuted (the two files have the same link addresses and ports: neither proxy reaches the other), C56_shipped_qkd_refuted (three of the four files for QKD are refused: no metrics entry), C56_shipped_ignored_refuted (two settings of the initiators' files have names the reader does not know: changing them changes nothing). The files are read from /repo/config/proxy by tools/shipped.py into Shipped.v; decimal conversion as in yaml-cpp for plain decimal numbers. That the line between the proxies neither loses nor reorders anything is assumed (for UDP too), and the key agreement accepts every key. Instances: C56_shipped_instance, C56_shipped_preshared_instance, C56_misaddressed_instance, C56_shipped_qkd_initiator."
  },
  {
   "property": "C57",
   "status": "partial",
   "theorems": [
    "C57_counters",
    "C57_once_partial",
    "C57_balance",
    "C57_outside_refuted",
    "C57_empty_refuted",
    "C57_meaning",
    "C57_passive",
    "C57_endpoint",
    "C57_no_more_than_received"
   ],
   "note": "Proved: C57_counters (each counter is the number of the answers it stands for, modulo 2^64, after every sequence of calls on the two sessions), C57_once_partial (every message counted exactly once, as a success exactly when accepted, if none comes outside of the time of the session and no authentic one is empty), C57_balance (without these conditions), C57_meaning (what each counter says about a message, in terms of the key, the times and the nonce), C57_passive, C57_endpoint and C57_no_more_than_received (for all runs of an initiator or responder). False in the two excluded cases: C57_outside_refuted (a message before the start or after the end of the session is counted nowhere), C57_empty_refuted (an authentic message without data is rejected and counted as a success and as a failed authentication). Instances: C57_instance, C57_endpoint_instance."
  }
 ]
}