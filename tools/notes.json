{
 "C06": {
  "status": "proved",
  "note": "Generator 0x1F4ACFB13; every burst of at most 32 bits, every odd error and every double error within the protected span, for sections of any length (bursts, odd) are detected."
 },
 "C10": {
  "status": "proved",
  "note": "Round trip for all eight message/file kinds."
 },
 "C11": {
  "status": "proved",
  "note": "Accepted byte strings are exactly the wire encodings of the specification, one per value."
 },
 "C12": {
  "status": "proved",
  "note": "All 32-bit lengths."
 },
 "C13": {
  "status": "proved",
  "note": "Follows from the exact characterisation of accepted inputs plus write-size theorems."
 },
 "C01": {
  "status": "proved",
  "note": "Writer emits the wire format; parser in any reachable idle state returns exactly the frame for every chunking."
 },
 "C02": {
  "status": "proved",
  "note": "For every reachable parser not holding a frame."
 },
 "C03": {
  "status": "proved",
  "note": "For all byte streams, from a new parser."
 },
 "C04": {
  "status": "proved",
  "note": "Explicit UB outcome for out-of-bounds access and out-of-fuel for divergence; neither is reachable."
 },
 "C05": {
  "status": "partial",
  "note": "False as stated (C05_resync_refuted: noise byte 07 before the frame). Proved: resynchronisation after sync-free noise, after a quiet gap from any state, after a corrupted body."
 },
 "C07": {
  "status": "proved",
  "note": "All histories of open/close/ready/arrival/read/transmit."
 },
 "C08": {
  "status": "partial",
  "note": "False as stated: C08_progress_refuted proves for every foreign or empty frame and every continuation without close that nothing is delivered. Progress proved when every frame is for this station and non-empty, for all schedules without close."
 },
 "C09": {
  "status": "partial",
  "note": "False as stated (two witnesses). Proved when the layer above drained the link layer before the close."
 },
 "C14": {
  "status": "proved",
  "note": "Endpoint level (C14_endpoint_no_replay): for every environment the nonces accepted in one session start at zero, strictly increase (by one in strict mode) and respect the maximum. Session level: same for data; the Session API alone would accept the authentication message repeatedly while its nonce is zero (C14_auth_replay_at_session_level_refuted), which the endpoint never lets happen."
 },
 "C15": {
  "status": "proved",
  "note": "Session level: every interleaving of calls on an initialized session, exact bytes of each frame and AES-GCM initialization vectors. Endpoint level: for every environment that supplies values of the C++ types, each data frame has as nonce the number of messages sent before under the same keys (C15_endpoint_sealed, C15_endpoint_no_reuse); if the handshakes derive different keys, no key and nonce pair is used twice in the life of the endpoint (C15_endpoint_unique)."
 },
 "C16": {
  "status": "proved",
  "note": "All clocks; the u32 conversion of the valid-until time is shown not to wrap."
 },
 "C17": {
  "status": "partial",
  "note": "True for all rejections except authenticated messages without user data, which use up their nonce although they are rejected (counterexample proved)."
 },
 "C18": {
  "status": "proved",
  "note": "Unforgeability of the AEAD is a hypothesis of the theorem, stated on the frames actually sent."
 },
 "C19": {
  "status": "proved",
  "note": "At the session API."
 },
 "C20": {
  "status": "proved",
  "note": "Threshold 1051 bytes is shown tight; the library's stacks use 4092."
 },
 "C21": {
  "status": "partial",
  "note": "Injectivity, round trip and rejection proved for HMAC mode; AES-GCM mode accepts tags with extra trailing bytes (proved)."
 },
 "C36": {
  "status": "partial",
  "note": "False of the code in three places, each proved: AES-GCM tags shorter than 16 bytes, reply ephemeral keys shorter than 32 bytes (public key initiator), certificate keys shorter than 32 bytes. Proved safe otherwise, for all executions of endpoints and complete stacks (C36_endpoint_defined_partial, C36_stack_defined_partial: execution is defined unless such a message was taken before). Two fixed messages crash every shared secret responder, seven bytes every preshared public key initiator, without any key. HMAC initiators are proved safe for all byte streams without exception."
 },
 "C38": {
  "status": "proved",
  "note": ""
 },
 "C22": {
  "status": "proved",
  "note": "All handshake modes. C22_completes shows the exchange exists under explicit conditions; an instance for each of the four configurations."
 },
 "C23": {
  "status": "proved",
  "note": "Collision resistance is a hypothesis on the explicit inputs of the two computations."
 },
 "C29": {
  "status": "proved",
  "note": "Exact characterisation of accepted chains, of the returned key, and of the error of a rejected chain."
 },
 "C30": {
  "status": "partial",
  "note": "False of the code: C30_expired_rejected_refuted; proved that the decision does not depend on the time at all."
 },
 "C35": {
  "status": "proved",
  "note": "The table is HandshakeSpec.decision, shown to be single valued. C35_mode_not_checked_refuted records that the shared-secret and QKD responders do not check the requested mode."
 },
 "C37": {
  "status": "proved",
  "note": "Equality with a transcription of RFC 5869, and where the keys of both sides come from."
 },
 "C24": {
  "status": "proved",
  "note": "Per message, in any state, and over whole runs."
 },
 "C25": {
  "status": "partial",
  "note": "Opening only on an authenticated session: for every environment. Data read is the payload accepted last: for applications that only transmit inside the \"open\" notification; without that it is false (C34_read_in_open_refuted)."
 },
 "C26": {
  "status": "proved",
  "note": "For every environment, re-entrant calls included."
 },
 "C34": {
  "status": "partial",
  "note": "Proved for an application bound to the layer itself whose callbacks only transmit while \"open\" is being notified. False otherwise: C34_stack_flag_refuted (stack object keeps its flag over a close), C34_read_in_open_refuted (dangling slice / mixed bytes), C34_deaf_refuted (unread payload after a session failure stops reception for good)."
 },
 "C28": {
  "status": "partial",
  "note": "Proved for applications whose callbacks only transmit while \"open\" is being notified. False otherwise: C28_close_in_open_refuted (close inside the open notification keeps the payload of the closed connection and stops all later reception)."
 },
 "C33": {
  "status": "partial",
  "note": "Chunks are exactly the accepted buffer, in order; progress as long as no transmission fails. False as stated: C33_stale_data_refuted (data of a failed session is sent in the next one), C33_blocked_refuted (transmission blocked in the new session), C33_lost_in_handshake_refuted (data sent in an authentication message that is never answered). Ready is told at most once per accepted buffer and only for non-empty ones, for every environment (C33_ready_once); an empty buffer is accepted and never answered (C33_empty_refuted)."
 },
 "C41": {
  "status": "proved",
  "note": "For a lower layer that keeps its promises and applications that call from their notifications only the endpoint or close."
 },
 "C27": {
  "status": "partial",
  "note": "Proved in an environment where, until the handshake is completed inside the notification of the data that came with it, no further message is read and the connection is not closed. False otherwise: C27_timer_refuted (an application reading in a loop leaves the retry timer running in the idle state, which later starts a needless handshake)."
 },
 "C31": {
  "status": "partial",
  "note": "Round trip, independence of the partition, and occurrence of every delivered frame are proved for all streams. Partial: with ser4cpp's copy_from (memcpy) the parser copies overlapping regions unless the stream is aligned (C31_overlap_refuted), frames can be lost after noise that looks like a start (C31_lost_frame_refuted) and for ever (C31_never_synchronizes_refuted), at most one is lost when frames contain the start bytes at their start only, and the writer drops the status."
 },
 "C32": {
  "status": "partial",
  "note": "Bound, single use, right key, highest identifier, exact effect of every operation proved for all histories. Refuted as worded: backwards is judged against the highest identifier held, not received (C32_backward_refuted)."
 },
 "C42": {
  "status": "partial",
  "note": "Routing, single use over all subscribers and agreement of two proxies proved for all histories. Refuted: zero subscribers divide by zero at the first key, a subscriber number no key maps to is accepted and starved, the stores of the two ends can diverge so that an offered key is unknown to the other end."
 },
 "C40": {
  "status": "partial",
  "note": "Proved for every schedule and every behaviour of the stacks: limit, identities, room, isolation, lifetime of sessions, and an exact characterisation of the undefined behaviour (C40_undefined). Partial: the oldest session is replaced only while its handshake has not succeeded (C40_evict_refuted: otherwise an invalid iterator is erased); C40_destroyed_refuted: use after free on a failure of the protocol side; C40_stuck_refuted: half closed sessions; C40_accept_refuted: one failed accept ends the listener."
 },
 "C39": {
  "status": "partial",
  "note": "Exact up to 24 days (C39_days_partial). False of the code from 25 days on: signed overflow (C39_overflow_refuted, for every such number of days); with wrapping arithmetic the end time is wrong, at most 24.86 days ahead, and in the past for 30 days (C39_wrapped_refuted)."
 },
 "C43": {
  "status": "partial",
  "note": "Creation, usability, appending and effects on files proved for all files, keys and disk faults. False of the code: chains of more than two certificates cannot be built by any sequence of commands (C43_two_levels_refuted), secret key files shorter than 64 bytes are read out of bounds (C43_short_key_refuted), unusable certificates are reported as made (C43_unusable_refuted), a failing write destroys an input that is also the output (C43_truncated_refuted), the same path for both keys loses the secret key (C43_same_path_refuted), a certificate made later for the same number of days as its authority's is refused (C43_same_days_refuted)."
 },
 "C44": {
  "status": "proved",
  "note": "Two runs of the endpoint model linked only by the assumption that a message the receiver got and that opens under the key of a session it established is one the sender sealed under this key (unforged), and that the sender's handshakes derived different keys (fresh_keys). The part about what is read needs an application that keeps the contract of the interfaces (reader_ok; opens_quietly for C44_origin); C44_delivery, about what is accepted, needs nothing from the receiver's environment. Order across sessions is not stated."
 },
 "C45": {
  "status": "partial",
  "note": "Ports, restart after a failure on the protected side of an established session, isolation and destruction of replaced sessions proved for all schedules (C45_ports, C45_restart_partial, C45_restart_only, C45_replaced_harmless, C45_replaced_destroyed). The situations in which the process fails are characterised exactly (C45_undefined) and without them no history fails (C45_defined_partial). False of the code: a failure on the unprotected side of a working session ends the process, port in use or use after free (C45_raw_error_refuted); a failure on the protected side before the handshake succeeded leaves the proxy dead for ever (C45_dead_refuted); the first failure of an operation is ignored and the operation is not started again (C45_first_error_ignored)."
 },
 "C46": {
  "status": "partial",
  "note": "Proved for all byte streams, partitions, schedules and configurations: C46_messages, C46_bus, C46_frames, C46_in_order, C46_one_transmission, C46_refines (every trace of the stack is a trace of the crypto layer over a lower layer that returns bytes), C46_no_replay, C46_origin, C46_delivery; C46_taken (after a notification, once everything is at rest, every frame that arrived completely was taken) and C46_all_taken for two stacks on a line; C46_listening if the connection is closed from outside the notifications. C46_origin and C46_delivery assume, as C44, that messages are not forged and that handshakes derive different keys. False of the code: after a frame for another station, or an empty one, nothing is received until the connection is closed (C46_deaf_refuted, for all such lines); a message can be taken and answered on a closed connection (C46_closed_refuted), bytes of an earlier connection are processed on the next one (C46_stale_refuted), and the first message of the next connection is lost (C46_first_lost_refuted). The transport's promise about readiness is an assumption of C46_one_transmission."
 },
 "C47": {
  "status": "partial",
  "note": "Proved for all files: C47_accepted (reading succeeds with a list of sessions exactly when the file states it, in the sense of ConfigSpec.says), C47_unambiguous, C47_registry, C47_stack (an accepted file yields stacks that satisfy the hypotheses of the endpoint and stack theorems), C47_settings, C47_pair (two matching files: the handshake completes with matching keys, the configured algorithm and limits; for chains short enough to be sent), C47_tool_keys, C47_launch (exact conditions under which the proxy runs). C47_defined_partial and C47_launch_defined_partial: no undefined behaviour, provided the durations in the file fit into 64-bit nanoseconds (and no session uses certificates). False of the code: a duration that does not fit overflows (C47_overflow_refuted); with certificates the configured algorithm is ignored (C47_certificate_algorithm_refuted); the names the shipped example files use for the session duration, its trigger and the baud rate are not looked at (C47_session_time_refuted, C47_baud_refuted); max_payload_size does not limit what is sent, and a smaller one makes a larger received message be decrypted past the buffer (C47_payload_refuted); accepted although useless: triggers above the limits and negative timeouts (C47_trigger_refuted), a time to live longer than the session (C47_pad_refuted), a subscriber the source never serves (C47_subscriber_refuted), a source without subscribers (C47_no_subscribers_refuted), a public key that is not the private key's (C47_key_pair_refuted), certificate files that hold none (C47_late_refuted: the first connection ends the process), a chain too long to be sent (C47_chain_refuted). The YAML text itself is parsed by yaml-cpp and not modelled."
 },
 "C48": {
  "status": "proved",
  "note": "C48_prefix, C48_all_delivered (safety), C48_never_stuck and C48_inevitable (every schedule of the remaining steps delivers everything: well-founded, no fairness assumption) for all compatible pairs; C48_instance and C48_inevitable_instance: concrete runs of all four kinds of configuration to such states. One session: no timer expires, the connection stays open, the conversation ends before the limits of the session; what happens otherwise is the subject of C27, C28, C33 and C44. C48_inevitable is for finite conversations: the applications offer no more data while the rest is delivered (they may read at any time). The line carries messages; frames over byte streams are C46."
 },
 "C49": {
  "status": "proved",
  "note": "C49_prefix, C49_all_delivered, C49_buffers (safety) and C49_inevitable (every schedule gets everything through) for all compatible pairs of stacks, all client data, all read sizes; C49_instance and C49_inevitable_instance: all four kinds of configuration. One session: the sockets stay open, no operation on them fails, and the protected line is reliable (as in C48); connection failures are C40 and C45, the bytes on the protected connection C46. C49_inevitable is for what the clients have sent: they send no more while the rest gets through."
 },
 "C50": {
  "status": "partial",
  "note": "Proved for applications bound to the crypto layer, and for applications that read through the stack object and whose last read before the new connection returned nothing. False otherwise: C50_stack_flag_refuted (the flag of the stack object survives the close and the first data of the new connection is lost). Environment of the past: [fair] (lower layer keeps ILowerLayer.h, the application only transmits while 'open' is notified and does not close before the handshake is completed; as in C27). On the new connection no timer expires, as in C48. Non-vacuity: C50_instance, C50_inevitable_instance, with sessions that had data in both directions and a transmission in progress at the close."
 },
 "C51": {
  "status": "partial",
  "note": "Proved except the last sentence, which is false: C51_rate_refuted and C51_pause (the emulator adds the time of the writing to the period instead of subtracting it), C51_too_fast_refuted (the period is cut to milliseconds), C51_clock_back_refuted (a clock set back makes the emulator send the same key again, and a proxy hands it out again), C51_starved_refuted and C51_second_subscriber_refuted (all identifiers are multiples of the period, so with 2 subscribers and a period of 1000 ms the second one never gets a key; C51_served_partial: without a common divisor everybody is served), C51_no_port_refuted (keys from the standard input without any port: success, nothing written). C51_ids_increase assumes for the time-based mode that the clock is not set back; clocks between 1970 and 2262. SHA-256 is a parameter (32 bytes). Non-vacuity: C51_instance_*."
 },
 "C52": {
  "status": "partial",
  "note": "Proved with the restriction that the applications offer no data while a renewal is under way (they may read, and what was offered before the last session is still delivered; the timer expires while nothing is left to do): C52_prefix_partial, C52_all_delivered_partial (includes that the session in use is a new one and the timer runs again), C52_inevitable_partial, for any number of renewals in a row. Without the restriction the claim is false: C52_busy_renewal_refuted (data offered by the application of the initiator between its authentication message and the answer is sent under the old session and dropped by the responder, which uses the new one already; nobody is told). C52_instance, C52_inevitable_instance: concrete runs of all four kinds of configuration with data before and after a renewal, with fresh random numbers and keys. The era may also begin with an open connection after any history (C53)."
 },
 "C53": {
  "status": "proved",
  "note": "C53_recovers (a timer is running; inevitably a new session), C53_afterwards (prefix, delivery and the new session afterwards, with any number of renewals), C53_without_session (data at any time if neither side has a session). Conditions, in the statements: no data is waiting to be sent or read, no transmission is under way and no further handshake was already asked for (`undisturbed`); the configuration was not found to be bad (a known defect: C27_retry_partial, C34); while one side still has an old session the applications offer no data until the new one is agreed on, as in C52 (C52_busy_renewal_refuted shows why); the steps are fast enough. Nothing is assumed about the history of the two sides except that the layers around them keep their promises (RecoverSpec `fair`). C53_recovers_instance, C53_without_session_instance: concrete histories of all kinds of configuration where the request or the answer of the responder was lost."
 },
 "C54": {
  "status": "proved",
  "note": "C54_shows (complete exactly when there is something well-formed, and then as the grammar of PrintSpec says), C54_unambiguous and C54_determines (one way to read the text; equal texts, equal files), C54_created (what is shown after creation), C54_messages (log items determine the message; the items given to the printer, as their formatting is done by log4cpp, which is not in the repository). The grammar (decimal numbers, hexadecimal lines of at most 16 bytes, numbered certificates, numbered extensions) uses nothing of the model. Texts are compared for the same file name, as the name is arbitrary text. C54_key_instance and C54_chain_instance: whole texts computed by the model for a key and for two certificates with extensions."
 },
 "C55": {
  "status": "partial",
  "note": "Proved except the last sentence: C55_requested, C55_show, C55_nothing, C55_outputs_only, C55_certificate (from the command line to the certificate and the text of C54), C55_ends_partial (the program ends unless the level is asked for; it ends if a level is typed). The last sentence is false: C55_hangs_refuted (the input ends or a number of 2^32 or more is typed when the level is asked for, or the days were not a number: std::cin stays failed and the loop never ends), C55_level_refuted (a word typed as the level is taken for 0: an end-entity certificate is signed), C55_days_refuted (a word, or no input, instead of the days: a certificate valid for no time is signed), C55_exit_refuted (the exit status is always 0). Not modelled: argagg (the command line is given as parsed), the text written to std::cerr; std::cin >> unsigned as in libstdc++. C55_certificate_instance, C55_defects_instance, C55_show_instance: concrete runs."
 },
 "C56": {
  "status": "partial",
  "note": "Proved except for some of the shipped files: C56_pipe, C56_comes_out and C56_stacks (for every two files that fit together, any settings, over the models of C47, C48 and C49), C56_frames_arrive and C56_misaddressed (over TCP, through the link layer, in any pieces), C56_shipped_secret (the files of config/proxy/shared_secret, TCP and UDP), C56_shipped_preshared_udp, C56_quickstart (from the key generator on, for every secret). False for the others: C56_shipped_preshared_tcp_refuted (the two files have the same link addresses and ports: neither proxy reaches the other), C56_shipped_qkd_refuted (three of the four files for QKD are refused: no metrics entry), C56_shipped_ignored_refuted (two settings of the initiators' files have names the reader does not know: changing them changes nothing). The files are read from /repo/config/proxy by tools/shipped.py into Shipped.v; decimal conversion as in yaml-cpp for plain decimal numbers. That the line between the proxies neither loses nor reorders anything is assumed (for UDP too), and the key agreement accepts every key. Instances: C56_shipped_instance, C56_shipped_preshared_instance, C56_misaddressed_instance, C56_shipped_qkd_initiator."
 },
 "C57": {
  "status": "partial",
  "note": "Proved: C57_counters (each counter is the number of the answers it stands for, modulo 2^64, after every sequence of calls on the two sessions), C57_once_partial (every message counted exactly once, as a success exactly when accepted, if none comes outside of the time of the session and no authentic one is empty), C57_balance (without these conditions), C57_meaning (what each counter says about a message, in terms of the key, the times and the nonce), C57_passive, C57_endpoint and C57_no_more_than_received (for all runs of an initiator or responder). False in the two excluded cases: C57_outside_refuted (a message before the start or after the end of the session is counted nowhere), C57_empty_refuted (an authentic message without data is rejected and counted as a success and as a failed authentication). Instances: C57_instance, C57_endpoint_instance."
 }
}