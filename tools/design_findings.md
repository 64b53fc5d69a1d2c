## 6. Findings about the code

Each item is a theorem about the model of the code as it is (name in parentheses) unless it says "read, not proved".

1. The link layer wedges after a frame that is not for this station or is empty: nothing is delivered until the
   connection is closed (`C08_progress_refuted`).
2. Closing the link layer keeps the unread remainder and the processing flag (`C09_*_refuted`); the stack object's own flag is never
   reset (`C34_stack_flag_refuted`).
3. The link parser misses a frame preceded by the byte 07 (`C05_resync_refuted`).
4. A transmission that fails in the crypto layer leaves the data, which is sent in the *next* session
   (`C33_stale_data_refuted`), or blocks transmission for good (`C33_blocked_refuted`); the unread payload then makes
   the endpoint deaf (`C34_deaf_refuted`). Data sent in the authentication message is lost when the
   handshake fails (`C33_lost_in_handshake_refuted`).
5. Out-of-bounds reads: AES-GCM tag length, reply ephemeral key length, certificate key length are not checked
   (`C36_*_refuted`): two fixed messages crash every shared-secret responder, seven bytes every initiator with preshared
   public keys, without any key (`C36_two_messages_refuted`, `C36_one_reply_refuted`); longer AES-GCM tags are accepted (C21).
6. The transmit buffer bound ignores the 16-byte tag for small payload limits (`C20_smaller_payload_refuted`).
7. Certificate validity is never compared with the clock (`C30_expired_rejected_refuted`); shared-secret and QKD
   responders do not check the requested handshake mode (`C35_mode_not_checked_refuted`).
8. An authenticated message without user data is rejected but uses its nonce (C17).
9. Re-entrant calls inside "open": C27_timer_refuted, C34_read_in_open_refuted, C28_close_in_open_refuted.
10. QIX: overlapping memcpy, lost frames and permanent loss of synchronisation (C31), "backwards" judged against the keys
    held (C32), zero subscribers divide by zero, starved subscribers, diverging stores (C42).
11. icftool: overflow from 25 days on (C39); only two-certificate chains can ever be built, short secret keys read out
    of bounds, unusable certificates reported as made, a later certificate for the same number of days as its
    authority is refused (C43).
12. TCP proxy: evicting an established session erases through an invalid iterator; a failure of the protocol side
    destroys the session inside its own call-back; half-closed sessions stay; one failed accept ends the listener (C40).
13. UDP proxy: an error on the unprotected side of a working session runs the error handler twice and ends the process
    (port in use, or use after free); an error on the protected side before the handshake succeeded leaves the proxy
    dead; the first error of a receive is ignored and the receive is not started again (C45).
14. An empty buffer is accepted for transmission, but the application is never told that it may transmit again
    (`C33_empty_refuted`): a zero-length datagram makes the UDP proxy deaf on its unprotected side.
15. Complete stack: on a line with several stations the first frame for another one makes the stack deaf
    (`C46_deaf_refuted`); a request received together with data is answered after the application closed the connection
    (`C46_closed_refuted`); after a reconnect bytes of the old connection are processed (`C46_stale_refuted`) and the
    first frame of the new one is dropped (`C46_first_lost_refuted`).
16. Read, not proved: the initiator does not check the version in the reply; `gen_keypair_x25519` tests Ed25519 support;
    AES-256-GCM hardware availability is never checked; `SessionModes.cpp` defines a type that does not exist. A responder whose answer to the session authentication
    fails keeps the session active without opening the upper layer; rejected data of the proxy's unprotected side is lost; `icftool --level` is not checked against [0,5].
17. Proxy configuration (C47): durations overflow silently; certificate mode ignores the configured algorithm; the shipped
    example files use three setting names the reader does not know (silently ignored); `max_payload_size` does not limit what
    is sent and, when lowered, makes AES-GCM write past the receive buffer; useless settings (trigger above the limit,
    negative timeout, time to live longer than the session, unserved subscriber, zero subscribers, foreign public key, too
    long chain) are accepted; bad certificate files of a TCP session end the process at the first connection.
18. The flag "the application is reading" of the stack object survives a close: the first data of the next connection can be
    lost (`C50_stack_flag_refuted`).
19. Emulator (C51): it computes the elapsed time with the wrong sign and so sends at a lower rate than configured; rates that
    do not divide 1000 are exceeded; a clock that is set back makes it send used keys again; a period that has a common
    divisor with the number of subscribers starves some of them (1000 ms and 2 subscribers).
20. Renewal (C52): the initiator sends data it is given between its authentication message and the answer under the old session,
    the responder uses the new one already and drops it silently, on a line that loses nothing (`C52_busy_renewal_refuted`).
21. The certificate tool (C54): the indentation grows with every certificate of a chain (`push_indent` at Actions.cpp:232 is not undone);
    nested structures are printed without their names; a chain with a malformed certificate is shown up to its envelope, then an
    exception is thrown. The text is unambiguous all the same.
22. The certificate tool (C55): after anything that is not a number was typed for the days, or at the end of the input, the loop
    for the level never ends; a word typed as the level is taken for 0 and an end-entity certificate is signed; a word typed as the days
    gives a certificate valid for no time; `--level` accepts up to 255 although the help says [0, 5] and the prompt 6; the exit
    status is 0 whatever happened.
23. Of the configuration files that come with the proxy (C56), those for preshared keys over TCP cannot work together: both have local
    address 10 and remote address 1, listen on port 20000 and connect to 20001. Three of the four files for QKD are refused because
    `qkd_sources` lacks `metrics`.
24. Statistics (C57): a message that arrives before the start or after the end of the session is counted nowhere; an authentic message without
    data is counted twice, as a success and as a failed authentication.
25. `max_session_duration` and `session_time_renegotiation_trigger` in the shipped files have no effect, whatever is written there
    (`C56_shipped_ignored_refuted`): the reader looks for `max_session_time_ms` and `session_time_renegotiation_trigger_ms`.
