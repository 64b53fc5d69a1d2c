# Design of the Rocq model of ssp21-cpp

This file is generated by `tools/design.py` from `tools/design_static.md` (the text), `properties.jsonl`,
`MANIFEST.json` and `seeded/LOG.jsonl`.

## 1. Approach

* **Values.** A byte is an `N` below 256 (`byte_ok`); a read-only sequence (`seq32_t`) is a `list N`; integer
  fields are `N` and every conversion or wrap of a C++ type is written out (`u8 u16 u32 u64`). Times are counts of
  nanoseconds in `Z` (steady clock) or milliseconds in `N` (certificates).
* **Buffers.** A destination (`wseq32_t`) of the message formatters is its remaining capacity, and a writer returns
  the bytes it wrote or an error. The link parser and the QIX parser, whose correctness *is* about an in-place
  buffer, work on an explicit fixed-size array.
* **Undefined behaviour** (reading or writing outside a buffer, a precondition of libsodium, signed overflow,
  division by zero, an invalid iterator, a destroyed object, overlapping `memcpy`) is a distinct outcome (`UB`) of
  the modelled function, and exhausting the fuel of a loop is a third (`NoFuel`). Theorems say which inputs can reach
  them: either none, or exactly these.
* **Cryptography** is a record of functions (`Primitives.prims`, `Icf.signer`). Every theorem quantifies over it.
  `prims_ok`/`signer_ok` (output lengths, decryption inverts encryption, Diffie-Hellman commutes, signatures verify) are
  the only general hypotheses. A security assumption, when needed (C18, C44: unforgeability, C23: collision resistance,
  C30/C43: none), is written in the statement of the theorem and on the very inputs of the computation, so that it is
  not "false by counting".
* **Environment.** The clock, timers, randomness, the transport below, the application above, the key source, the disk
  are inputs of the step functions: a theorem over all lists of labels is a theorem over all environments. Calls an
  application makes from inside its notifications (re-entrancy) are part of the model: `Endpoint.v` is a machine with
  an explicit stack of the calls still to be made.
* **Proof method.** Inductive invariants over all label sequences (Session, Endpoint, LinkLayer, Proxy, Udp, key store),
  simulation (link parser, QIX parser), exact characterisation of accepted inputs (codecs), algebra of polynomials
  over GF(2) (CRC). No bound on sizes, depths or steps anywhere; concrete computations appear only as
  non-vacuity examples and as refutation witnesses.
* **Suffixes.** `_partial`: a proved part of a property whose full statement is not provable (normally because the code
  does not satisfy it; the hypothesis added is visible in the statement). `_refuted`: a proved theorem saying that the
  code does *not* have the property, with the witness run or the whole class of inputs.

## 2. Layout

| theory | models (under /repo/cpp) | specification | proofs | property theorems |
|---|---|---|---|---|
| `Base` | the parts of ser4cpp that are used (sources absent from /repo) | – | `BaseFacts` | – |
| `Codec` | `libs/ssp21/src/crypto/VLength.cpp`, `MessageParser.h`, `MessageFormatter.h`, `{Integer,Enum,SeqByte,SeqStruct}Field.h`, all of `crypto/gen/*.cpp` | `CodecSpec` | `CodecFacts` | `PropCodec` |
| `Crc` | `src/link/CastagnoliCRC32.cpp` (table copied mechanically) | `CrcSpec` | `CrcFacts`, `CrcMain` | `PropCrc` |
| `Link` | `src/link/LinkParser.*`, `LinkFrameWriter.*`, `RawFrameWriter.cpp` | `LinkSpec` | `LinkFacts`, `LinkMain` | `PropLink` |
| `LinkLayer` | `src/link/LinkLayer.*`, `stack/{ILowerLayer,IUpperLayer}.h` as used by it | `LinkLayerSpec` | `LinkLayerFacts` | `PropLinkLayer` |
| `Primitives` | interface of libsodium as used by `libs/sodium/src/Backend.cpp` | – | – | – |
| `Session` | `Session.*`, `Sessions.*`, `SessionMode.*`, `MacAdapters.h`, `NonceFunctions.h`, `Nonce.h`, `Backend.cpp` (AEAD, comparison) | `SessionSpec` | `SessionFacts`, `SessionMain` | `PropSession` |
| `Handshake` | `Algorithms.cpp`, `TripleDH.cpp`, `HKDF.h`, `Crypto.cpp`, `HandshakeHasher.cpp`, `Chain.cpp`, `IndustrialCertificateHandler.*`, `PresharedKeyCertificateHandler.h`, the three initiator and three responder handshakes, `Responder.cpp` (handshake part), `ProtocolVersion.cpp` | `HandshakeSpec` | `HandshakeFacts`, `HandshakeMain`, `HandshakePair` | `PropHandshake` |
| `Endpoint` | `CryptoLayer.*`, `Initiator.*`, `InitiatorHandshakeStates.*`, `Responder.*`, `TxState.h`, `LinkCryptoStack.h`/`AbstractStack` flags, `stack/{ILowerLayer,IUpperLayer}.h` | `EndpointSpec` | `EndpointFacts`, `EndpointMain`, `EndpointNonce`, `EndpointRx`, `EndpointTx`, `EndpointTimer`, `EndpointClose`, `EndpointRuns` | `PropEndpoint`, `PropEndpoint2..4` |
| `Qix` | `libs/qix/src/{QIXFrameParser,AsyncQIXFrameReader,QIXFrameWriter,QIXKeyStore}.cpp`, `exe/proxy/src/qkd/QIXQKDSource.cpp`, `KeyRecord.cpp` | `QixSpec` | `QixFacts`, `QixStore` | `PropQix` |
| `Emulator` | `exe/qix-emulator/main.cpp` (without the argument parser) | `EmulatorSpec` | `EmulatorFacts` | `PropEmulator` |
| `Proxy` | `exe/proxy/src/tcp/*`, `Session.h`, `AsioLowerLayer.h`, `AsioUpperLayer.h` | `ProxySpec` | `ProxyFacts` | `PropProxy` |
| `Icf` | `exe/icftool/Actions.cpp`, `Program.cpp` (dispatch), `UserInput.cpp`, `SecureFile.*`, `SerializationUtils.h` | `IcfSpec` | `IcfFacts` | `PropIcf` |
| (two `Endpoint`s) | the same, with an arbitrary network between | `PairSpec` | `EndpointPair` | `PropPair` |
| `UdpProxy` | `exe/proxy/src/udp/*`, `Session.h`, `AsioUpperLayer.h`, `AsioLowerLayer.h` | `UdpProxySpec` | `UdpProxyFacts` | `PropUdpProxy` |
| (`Endpoint`) | notification of the end of a transmission | `EndpointSpec` | `EndpointReady` | `PropEndpoint5` |
| `Stack` | `stack/LinkCryptoStack.h` with the link layer and the crypto layer | `StackSpec` | `LinkLayerBus`, `StackFacts`, `StackDrain` (`StackRuns`: concrete runs) | `PropStack`, `PropStack2` |
| `Config` | `exe/proxy/src/{main,ConfigReader,StackConfigReader,YAMLHelpers,IPEndpoint}.*`, `tcp/TcpConfig.*`, `udp/UdpConfig.*`, `qkd/QKDSourceRegistry.*`, `StackFactory.h` | `ConfigSpec` | `ConfigFacts`, `ConfigUse` | `PropConfig` |
| `Endpoint`, `Stack` (definedness of all runs) | as above | `SafeSpec` | `EndpointSafe`, `StackSafe` | `PropSafe` |
| `Line` (two `Endpoint`s) | a reliable line between two endpoints | `LineSpec` | `LineMsgs`, `LineHandshake`, `LineLocal`, `LineSide`, `LineCost`, `LineFacts`, `LineLive` (`LineRuns`: concrete runs) | `PropLine` |
| `Tunnel` (two proxies over `Line`) | `exe/proxy/src/AsioUpperLayer.h`, `tcp/AsioTcpSocketWrapper.h` | `TunnelSpec` | `TunnelFacts`, `TunnelLive` | `PropTunnel` |
| `Line` from `start_line` (a new connection after any history of `Endpoint`) | as `Line`, `Endpoint` | `RecoverSpec` | `RecoverFacts` | `PropRecover` |
| `Renew` (the session timer over `Line`) | `Initiator.cpp:86-100`, both sessions of `Sessions.h` | `RenewSpec` | `RenewFacts` | `PropRenew` |
| `Resume` (the timers of the initiator expire in any state) | `Initiator.cpp:58-95`, `InitiatorHandshakeStates.cpp:92-97, 143-155` | `RenewSpec` | `RenewFacts` | `PropResume` |
| `Print` | `exe/icftool/ConsolePrinter.h`, `Actions.cpp:29-53, 223-250`, the print functions of `gen/*.cpp`, `MessagePrinting.h`, `SeqStructField.h:75-87` | `PrintSpec` | `PrintFacts` | `PropPrint` |
| `Program` | `exe/icftool/Program.cpp`, `UserInput.cpp:8-26`, `main.cpp` | `ProgramSpec` | `ProgramFacts` | `PropProgram` |
| `Shipped` (generated) | `config/proxy/*/*/*.yml` | `DeploySpec` (two configured proxies) | `DeployFacts` | `PropDeploy` |
| `Statistics` | `Session.cpp`, `Sessions.cpp`, `crypto/Statistics.h`, `CryptoLayer.h` (get_statistics) | `StatisticsSpec` | `StatisticsFacts` | `PropStatistics` |

Model files contain definitions only; each definition cites the file and lines it models and states the
simplifications. Specification files are short and use only the data types of the model. `Prop*.v` state each property,
print its assumptions and give at least one concrete, non-trivial instance that meets the hypotheses.

## 3. Trusted base

1. **Coq 8.16.1's kernel** (and `coqchk`, which re-checks every compiled file in `vcheck`).
2. **Axioms.** `Print Assumptions` answers "Closed under the global context" for every theorem listed in MANIFEST.json:
   no axiom, neither of ours nor of the standard library. (`coqchk -o` additionally lists seven
   `Coq.ssr.ssrunder.Under_rel.*` constants, which belong to a loaded standard module and are used by no theorem.)
   No `Admitted`, no functor or module type, no `Declare Module`, no plugin, no kernel check switched off.
3. **The reading of the C++** cited in each definition. Nothing was compiled or run.
4. **ser4cpp** (`Base.v`): its sources are not in /repo. `take/skip/advance` clamp, `copy_from/move_from` refuse a
   destination that is too small, `UIntN::read_from/write_to` are big-endian and refuse short sequences,
   `copy_from` is `memcpy`, `move_from` is `memmove`.
5. **libsodium, asio, exe4cpp, yaml-cpp, the C++ standard library**: behave as documented. libsodium functions are
   parameters; asio completes each started operation at most once, and only from the executor; the executor runs one handler at a time; the
   steady clock is an arbitrary function of the step.
6. **The specifications** (`*Spec.v`) say what the English properties say.

## 4. What is not modelled

* logging and its configuration (what is given to the log about a message is modelled, not its formatting by log4cpp), the parsing of the command line (argagg), the parsing
  of YAML text into a tree (yaml-cpp; what the proxy does with the tree is modelled), the serial driver;
* the contents of the data in the proxies (the stacks inside are modelled separately, in `Endpoint`/`LinkLayer`);
* the data race of the QIX subscribers map with the executor thread (single-threaded model);
* overflow of 64-bit nanosecond times; allocation failure; exceptions other than those cited;
* secure zeroing of buffers beyond the fact that they are replaced; timing side channels; the compiler.

## 5. Per property: what is modelled, how it is proved, result

### C01 Link frame round trip — proved

If a sender formats a link frame with any destination, any source and any payload that fits the receiver's maximum payload, and the receiver's frame parser is idle, then feeding the frame bytes to the parser in any sequence of chunks yields exactly one frame, with exactly that destination, source and payload, and consumes exactly the bytes of the frame.

*Modelled and proved by:* writer and byte-level parser automaton with its buffer; symbolic run of one frame under every chunking.

*Result:* Writer emits the wire format; parser in any reachable idle state returns exactly the frame for every chunking.

*Theorems:* `C01_writer_emits_wire_format`, `C01_writer_succeeds`, `C01_parse_consumes_exactly_the_frame`, `C01_frames_round_trip`

### C02 Link parsing is independent of chunk boundaries — proved

For any byte stream, the sequence of frames the link parser delivers and its final state depend only on the concatenation of the bytes given to it, never on how reads from the transport split them.

*Modelled and proved by:* the parser is shown equal to a byte-at-a-time fold; chunk boundaries vanish.

*Result:* For every reachable parser not holding a frame.

*Theorems:* `C02_chunk_independence`

### C03 No frame is invented — proved

Every frame the link parser ever delivers occurs contiguously in the received byte stream as two sync bytes, a header whose CRC is correct, and a body whose CRC is correct, with length field equal to the payload length and at most the configured maximum; different delivered frames come from disjoint, in-order stretches of the stream.

*Modelled and proved by:* every delivered frame is located in the stream with both CRCs; invariant relating buffer and consumed bytes.

*Result:* For all byte streams, from a new parser.

*Theorems:* `C03_frames_come_from_the_stream`

### C04 Link parser memory safety — proved

For any byte stream, the link parser never reads or writes outside its receive buffer and every call terminates, consuming at least one byte or reporting a frame.

*Modelled and proved by:* explicit UB/NoFuel outcomes; invariant bounding the buffered count, termination measure of the parse loop.

*Result:* Explicit UB outcome for out-of-bounds access and out-of-fuel for divergence; neither is reachable.

*Theorems:* `C04_parse_terminates_safely`

### C05 Resynchronisation after noise — partial

After any amount of line noise or corrupted frames, a subsequent intact frame is delivered provided the preceding bytes do not form the start of a plausible frame that swallows it.

*Modelled and proved by:* as C01 from arbitrary states; witness for the refutation.

*Result:* False as stated (C05_resync_refuted: noise byte 07 before the frame). Proved: resynchronisation after sync-free noise, after a quiet gap from any state, after a corrupted body.

*Theorems:* `C05_resync_after_noise_partial`, `C05_resync_after_quiet_gap_partial`, `C05_resync_after_corrupted_body_partial`, `C05_resync_refuted`

### C06 CRC error detection — proved

The link CRC implemented by the table is the remainder of polynomial division by the documented generator; corrupting any frame section by a single bit, or by any burst spanning at most 32 bits, is always detected whatever the length of the section.

*Modelled and proved by:* table = 8-step polynomial division (complete 256-entry check lifted by linearity), then polynomial algebra over GF(2); order of x modulo the generator by computation in the kernel.

*Result:* Generator 0x1F4ACFB13; every burst of at most 32 bits, every odd error and every double error within the protected span, for sections of any length (bursts, odd) are detected.

*Theorems:* `C06_crc_is_polynomial_remainder`, `C06_remainder_unique`, `C06_crc_detects_bursts`, `C06_crc_detects_odd_errors`, `C06_crc_detects_double_errors`, `C06_crc_detects_header_errors`, `C06_burst_in_body_is_dropped`

### C07 Link layer address filtering — proved

The link layer delivers to the layer above only payloads of frames addressed to its own local address, in stream order and each at most once; every frame the layer above transmits carries the configured local and remote addresses.

*Modelled and proved by:* simulation of LinkLayer by the parser over all histories.

*Result:* All histories of open/close/ready/arrival/read/transmit.

*Theorems:* `C07_address_filtering`, `C07_transmit_addresses`

### C08 Link layer progress — partial

As long as the transport delivers bytes and the layer above keeps reading, a valid frame for the local address is delivered even if it is preceded by valid frames for other addresses or by empty frames.

*Modelled and proved by:* progress invariant of the queue/remainder/flag; refutation by induction over all continuations.

*Result:* False as stated: C08_progress_refuted proves for every foreign or empty frame and every continuation without close that nothing is delivered. Progress proved when every frame is for this station and non-empty, for all schedules without close.

*Theorems:* `C08_progress_partial`, `C08_end_to_end_partial`, `C08_progress_refuted`

### C09 Link layer isolation across connections — partial

Bytes received before the transport closes have no influence on what is delivered after the transport reopens.

*Modelled and proved by:* drained-state invariant; two witness histories.

*Result:* False as stated (two witnesses). Proved when the layer above drained the link layer before the close.

*Theorems:* `C09_isolation_when_drained_partial`, `C09_isolation_refuted_stale_delivery`, `C09_isolation_refuted_lost_frame`

### C10 Message codec round trip — proved

For every handshake request, handshake reply, handshake error, session data message, certificate body, certificate envelope, certificate chain and container file whose fields respect their ranges, formatting succeeds when the buffer is large enough and parsing the produced bytes yields the same field values.

*Modelled and proved by:* reader/writer combinators, one lemma per field kind composed for each message.

*Result:* Round trip for all eight message/file kinds.

*Theorems:* `C10_request_round_trip`, `C10_reply_round_trip`, `C10_error_round_trip`, `C10_session_data_round_trip`, `C10_body_round_trip`, `C10_envelope_round_trip`, `C10_chain_round_trip`, `C10_container_round_trip`

### C11 Message codec canonicity — proved

Every byte sequence a message parser accepts is exactly the byte sequence the formatter produces for the parsed values; hence two different byte sequences never parse to the same message and a peer cannot create an alternative encoding of a signed or hashed message.

*Modelled and proved by:* read succeeds iff the input is the wire encoding of the independent specification.

*Result:* Accepted byte strings are exactly the wire encodings of the specification, one per value.

*Theorems:* `C11_request_parse_iff_wire`, `C11_request_no_two_encodings`, `C11_reply_parse_iff_wire`, `C11_reply_no_two_encodings`, `C11_error_parse_iff_wire`, `C11_error_no_two_encodings`, `C11_session_data_parse_iff_wire`, `C11_session_data_no_two_encodings`, `C11_body_parse_iff_wire`, `C11_body_no_two_encodings`, `C11_envelope_parse_iff_wire`, `C11_envelope_no_two_encodings`, `C11_chain_parse_iff_wire`, `C11_chain_no_two_encodings`, `C11_container_parse_iff_wire`, `C11_container_no_two_encodings`

### C12 Variable-length integer codec — proved

Variable-length lengths round trip for all 32-bit values, use the unique shortest encoding, take exactly the number of bytes announced by the size function, and reading never consumes more than available.

*Modelled and proved by:* case analysis on the byte count of the length.

*Result:* All 32-bit lengths.

*Theorems:* `C12_vlength_read_iff`, `C12_vlength_write`, `C12_vlength_shortest`

### C13 Parsers reject exactly the malformed inputs, within limits — proved

Message parsers reject trailing bytes, truncated input, unknown enumeration values, wrong function codes and collections beyond their limit; formatting either fails without overrunning the destination or writes exactly the announced size.

*Modelled and proved by:* exactness of the readers, size of the writers.

*Result:* Follows from the exact characterisation of accepted inputs plus write-size theorems.

*Theorems:* `C13_request_write_size`, `C13_request_rejects_trailing`, `C13_request_rejects_other_functions`, `C13_reply_write_size`, `C13_reply_rejects_trailing`, `C13_reply_rejects_other_functions`, `C13_error_write_size`, `C13_error_rejects_trailing`, `C13_error_rejects_other_functions`, `C13_session_data_write_size`, `C13_session_data_rejects_trailing`, `C13_session_data_rejects_other_functions`, `C13_body_write_size`, `C13_body_rejects_trailing`, `C13_envelope_write_size`, `C13_envelope_rejects_trailing`, `C13_chain_write_size`, `C13_chain_rejects_trailing`, `C13_container_write_size`, `C13_container_rejects_trailing`

### C14 Replay protection — proved

Within one session no received message is accepted twice: the nonces of accepted messages strictly increase, the first accepted message has nonce zero, in strict-increment mode every accepted nonce is exactly one more than the previous, and no nonce ever wraps or exceeds the negotiated maximum.

*Modelled and proved by:* invariant over all interleavings of the session and of the endpoint machine.

*Result:* Endpoint level (C14_endpoint_no_replay): for every environment the nonces accepted in one session start at zero, strictly increase (by one in strict mode) and respect the maximum. Session level: same for data; the Session API alone would accept the authentication message repeatedly while its nonce is zero (C14_auth_replay_at_session_level_refuted), which the endpoint never lets happen.

*Theorems:* `C14_endpoint_no_replay`, `C14_nonces_increase`, `C14_no_data_replay`, `C14_auth_replay_at_session_level_refuted`

### C15 Transmit nonces are never reused — proved

Within one session every transmitted message carries a distinct nonce, starting at 0 and increasing by 1; failed transmissions consume no nonce; once the maximum is reached nothing more is transmitted.

*Modelled and proved by:* session invariant on the transmit nonce; at the endpoint, a ghost history of sealed messages per key pair.

*Result:* Session level: every interleaving of calls on an initialized session, exact bytes of each frame and AES-GCM initialization vectors. Endpoint level: for every environment that supplies values of the C++ types, each data frame has as nonce the number of messages sent before under the same keys (C15_endpoint_sealed, C15_endpoint_no_reuse); if the handshakes derive different keys, no key and nonce pair is used twice in the life of the endpoint (C15_endpoint_unique).

*Theorems:* `C15_endpoint_sealed`, `C15_endpoint_no_reuse`, `C15_endpoint_unique`, `C15_nonces_in_sequence`, `C15_no_reuse`, `C15_protected_with_own_nonce`, `C15_gcm_iv_distinct`, `C15_failed_transmission_no_effect`, `C15_stops_at_maximum`

### C16 Session lifetime and time-to-live — proved

A session neither accepts nor produces any message before its start time or after its maximum duration, and never accepts a message after the valid-until time it carries; every produced message carries a valid-until no later than the end of the session.

*Modelled and proved by:* exact characterisation of acceptance in terms of the clock.

*Result:* All clocks; the u32 conversion of the valid-until time is shown not to wrap.

*Theorems:* `C16_session_lifetime`, `C16_valid_until`

### C17 Rejected messages have no effect — partial

If a received session message is rejected, nothing except statistics changes: keys, nonces, validity and any later decision are as if the message had not arrived.

*Modelled and proved by:* case analysis of validation; counterexample.

*Result:* True for all rejections except authenticated messages without user data, which use up their nonce although they are rejected (counterexample proved).

*Theorems:* `C17_rejected_no_effect_partial`, `C17_empty_message_refuted`

### C18 Authentic, in-order, at-most-once delivery — proved

Assuming the AEAD cannot be forged, whatever the network does (drop, duplicate, reorder, inject, modify), the sequence of user data delivered by the receiving session is a subsequence, in order and without repetition, of the data the peer transmitted in that same session; in strict mode it is a prefix of it.

*Modelled and proved by:* refinement of the accepted list to a subsequence of the sent list, under unforgeability stated on the actual frames.

*Result:* Unforgeability of the AEAD is a hypothesis of the theorem, stated on the frames actually sent.

*Theorems:* `C18_channel`

### C19 Fragmentation preserves user data — proved

When an upper layer transmits a buffer of any size, the user data of the transmitted messages concatenates to exactly that buffer, each fragment being non-empty and no longer than the negotiated limits.

*Modelled and proved by:* induction over the transmit loop.

*Result:* At the session API.

*Theorems:* `C19_fragmentation`

### C20 Session messages always fit — proved

With the maximum link payload used by the library stacks, formatting a session message never fails for lack of buffer space, whatever the user data.

*Modelled and proved by:* size arithmetic; tight threshold.

*Result:* Threshold 1051 bytes is shown tight; the library's stacks use 4092.

*Theorems:* `C20_always_fits`, `C20_smaller_payload_refuted`

### C21 MAC input is unambiguous — partial

Two different (metadata, payload) pairs are never authenticated by the same MAC input, encrypt-then-decrypt returns the payload, and a modified metadata, payload or tag is rejected unless the MAC collides.

*Modelled and proved by:* injectivity of the formatted metadata.

*Result:* Injectivity, round trip and rejection proved for HMAC mode; AES-GCM mode accepts tags with extra trailing bytes (proved).

*Theorems:* `C21_mac_input_injective`, `C21_encrypt_decrypt`, `C21_hmac_opens_iff`, `C21_hmac_modified_rejected`, `C21_gcm_tag_extension_refuted`

### C22 Handshake key agreement — proved

For shared secret, quantum key and public key modes, if the initiator receives the responder's reply to its request unmodified, both sides derive session keys such that each side's transmit key is the other's receive key, and use the same constraints, nonce mode and crypto mode.

*Modelled and proved by:* symbolic execution of both sides of each handshake.

*Result:* All handshake modes. C22_completes shows the exchange exists under explicit conditions; an instance for each of the four configurations.

*Theorems:* `C22_key_agreement`, `C22_completes`

### C23 Transcript binding — proved

Assuming the hash is collision resistant and the key derivation is injective in its inputs, if both sides end up with matching keys then they agree on every byte of the handshake request and reply (hence on version, algorithms, constraints and certificates): downgrade by modification of the handshake is impossible.

*Modelled and proved by:* transcript equality from equality of the hashes under collision resistance on the two inputs.

*Result:* Collision resistance is a hypothesis on the explicit inputs of the two computations.

*Theorems:* `C23_transcript_binding`, `C23_no_downgrade`

### C24 Unauthenticated input cannot disturb an established session — proved

Handshake requests, replies, errors and session messages that do not authenticate never change an endpoint's active session or close the upper layer; on the responder the active session is replaced only by a session-authentication message that verifies under the pending session.

*Modelled and proved by:* per-message non-interference of the endpoint machine, lifted to runs.

*Result:* Per message, in any state, and over whole runs.

*Theorems:* `C24_unauthenticated_message`, `C24_established_session_kept`

### C25 Upper layer opens only on an authenticated session — partial

The upper layer is told it is open only after a message authenticated under the newly derived keys has been received from the peer, and while it is open the data passed up comes only from authenticated messages.

*Modelled and proved by:* automaton over the events of the endpoint, invariant over all label lists.

*Result:* Opening only on an authenticated session: for every environment. Data read is the payload accepted last: for applications that only transmit inside the "open" notification; without that it is false (C34_read_in_open_refuted).

*Theorems:* `C25_justified`, `C25_only_authenticated_data_partial`

### C26 Open and close notifications alternate — proved

A layer above sees open and close strictly alternating, starting with open, and never sees a transmit-ready or receive-ready notification while closed.

*Modelled and proved by:* automaton over the events.

*Result:* For every environment, re-entrant calls included.

*Theorems:* `C26_alternation`, `C26_open_before_everything`

### C27 The initiator never gets stuck — partial

Whenever the lower layer is open and the initiator has no established session, either the initiator has a timer pending or it has reported a permanently bad configuration; there is never more than one response/retry timer pending, and a timer that fires is for the current state.

*Modelled and proved by:* invariant relating handshake state and armed timer; witness.

*Result:* Proved in an environment where, until the handshake is completed inside the notification of the data that came with it, no further message is read and the connection is not closed. False otherwise: C27_timer_refuted (an application reading in a loop leaves the retry timer running in the idle state, which later starts a needless handshake).

*Theorems:* `C27_alive_partial`, `C27_response_timeout_partial`, `C27_retry_partial`, `C27_timer_refuted`

### C28 Closing the lower layer wipes the session — partial

After the lower layer closes, both sessions are unusable and nothing is transmitted or delivered until a new handshake completes; pending transmit data from the old connection is dropped.

*Modelled and proved by:* invariant of the state after a close; witness.

*Result:* Proved for applications whose callbacks only transmit while "open" is being notified. False otherwise: C28_close_in_open_refuted (close inside the open notification keeps the payload of the closed connection and stops all later reception).

*Theorems:* `C28_wiped_partial`, `C28_nothing_after_close_partial`, `C28_closed_state_partial`, `C28_close_in_open_refuted`

### C29 Certificate chain soundness — proved

A certificate chain is accepted only if every certificate is signed by the preceding one, the first by a trusted anchor, validity intervals nest, signing levels strictly decrease, every issuing certificate holds a signing key, and the end-entity certificate has level zero and a Diffie-Hellman key; the key returned is the one in the end-entity certificate.

*Modelled and proved by:* induction over the chain.

*Result:* Exact characterisation of accepted chains, of the returned key, and of the error of a rejected chain.

*Theorems:* `C29_accepted_iff_certified`, `C29_chain_bounds`, `C29_handler_returns_certified_key`, `C29_rejection_reason`, `C29_presented_chain`

### C30 Expired certificates are rejected — partial

A certificate whose validity interval does not contain the current time is not accepted during a handshake.

*Modelled and proved by:* independence of the decision from the time; witness.

*Result:* False of the code: C30_expired_rejected_refuted; proved that the decision does not depend on the time at all.

*Theorems:* `C30_decision_independent_of_time`, `C30_expired_rejected_refuted`

### C31 QKD frame stream parsing — partial

QIX frames round trip through writer and reader, the frames delivered do not depend on how the serial stream is split, and every delivered key occurs in the stream inside a frame with a correct CRC.

*Modelled and proved by:* simulation of the parser by stream contents; witnesses.

*Result:* Round trip, independence of the partition, and occurrence of every delivered frame are proved for all streams. Partial: with ser4cpp's copy_from (memcpy) the parser copies overlapping regions unless the stream is aligned (C31_overlap_refuted), frames can be lost after noise that looks like a start (C31_lost_frame_refuted) and for ever (C31_never_synchronizes_refuted), at most one is lost when frames contain the start bytes at their start only, and the writer drops the status.

*Theorems:* `C31_round_trip`, `C31_chunking`, `C31_delivered_frames_occur`, `C31_complete`, `C31_resynchronizes_partial`, `C31_defined_partial`, `C31_stops_after_error`, `C31_overlap_refuted`, `C31_lost_frame_refuted`, `C31_never_synchronizes_refuted`, `C31_status_refuted`

### C32 Quantum keys are used at most once and in bounded memory — partial

The key store never holds more than the configured number of keys, never hands out the same stored key twice, hands out the highest identifier when asked for any key, and after an identifier goes backwards it only holds keys received since.

*Modelled and proved by:* invariant over all histories of the key store.

*Result:* Bound, single use, right key, highest identifier, exact effect of every operation proved for all histories. Refuted as worded: backwards is judged against the highest identifier held, not received (C32_backward_refuted).

*Theorems:* `C32_bounded`, `C32_single_use`, `C32_right_key`, `C32_highest`, `C32_find`, `C32_backward_partial`, `C32_forward`, `C32_backward_refuted`

### C33 Transmit requests are never lost or mixed up — partial

Every buffer accepted for transmission is transmitted completely and exactly once within the current session, or the upper layer is told that the session closed; data from before a session failure is not transmitted in a later session.

*Modelled and proved by:* invariant relating the chunks handed down to the accepted buffer; witnesses.

*Result:* Chunks are exactly the accepted buffer, in order; progress as long as no transmission fails. False as stated: C33_stale_data_refuted (data of a failed session is sent in the next one), C33_blocked_refuted (transmission blocked in the new session), C33_lost_in_handshake_refuted (data sent in an authentication message that is never answered). Ready is told at most once per accepted buffer and only for non-empty ones, for every environment (C33_ready_once); an empty buffer is accepted and never answered (C33_empty_refuted).

*Theorems:* `C33_chunks`, `C33_complete`, `C33_progress_partial`, `C33_stale_data_refuted`, `C33_blocked_refuted`, `C33_lost_in_handshake_refuted`, `C33_ready_once`, `C33_empty_refuted`

### C34 Receive back-pressure — partial

A received payload stays available and unchanged until the upper layer has read it and finished processing, later messages do not overwrite it, and each payload is handed up at most once.

*Modelled and proved by:* invariant of unread payload and of the processing flags; witnesses.

*Result:* Proved for an application bound to the layer itself whose callbacks only transmit while "open" is being notified. False otherwise: C34_stack_flag_refuted (stack object keeps its flag over a close), C34_read_in_open_refuted (dangling slice / mixed bytes), C34_deaf_refuted (unread payload after a session failure stops reception for good).

*Theorems:* `C34_delivery_partial`, `C34_stack_flag_refuted`, `C34_read_in_open_refuted`, `C34_deaf_refuted`

### C35 Responder handshake decision table — proved

For every handshake request the responder replies with exactly the documented error for the first failing check and creates no pending session, or replies with its handshake data and a pending session using exactly the requested constraints and algorithms.

*Modelled and proved by:* exact decision table against the specification, single-valued.

*Result:* The table is HandshakeSpec.decision, shown to be single valued. C35_mode_not_checked_refuted records that the shared-secret and QKD responders do not check the requested mode.

*Theorems:* `C35_endpoint_request`, `C35_endpoint_no_handshake`, `C35_endpoint_silent`, `C35_decision`, `C35_decision_unique`, `C35_mode_not_checked_refuted`

### C36 Error paths of message buffers are memory safe — partial

Decrypting a received message never reads beyond the message nor writes beyond the destination buffer, for any received lengths; key-agreement and signature primitives are only called with keys and tags of the right length. No sequence of received bytes, calls, timers and answers leads an endpoint or a complete stack into undefined behaviour.

*Modelled and proved by:* Undefined behaviour is an outcome of the model (UB): the primitives of the backend, called with too short keys or tags, and slices of messages no longer kept. Lengths are arithmetic on the read messages; for running endpoints and stacks, induction over the run with an invariant that held slices are current, that every message being processed was taken before, and (HMAC) that no session uses AES-GCM. The stack is reduced to its crypto layer by the simulation of C46. The exceptions are executed symbolically for arbitrary keys and primitives.

*Result:* False of the code in three places, each proved: AES-GCM tags shorter than 16 bytes, reply ephemeral keys shorter than 32 bytes (public key initiator), certificate keys shorter than 32 bytes. Proved safe otherwise, for all executions of endpoints and complete stacks (C36_endpoint_defined_partial, C36_stack_defined_partial: execution is defined unless such a message was taken before). Two fixed messages crash every shared secret responder, seven bytes every preshared public key initiator, without any key. HMAC initiators are proved safe for all byte streams without exception.

*Theorems:* `C36_responder_safe_partial`, `C36_initiator_safe_partial`, `C36_short_ephemeral_refuted`, `C36_short_certificate_key_refuted`, `C36_endpoint_defined_partial`, `C36_stack_defined_partial`, `C36_initiator_stack_defined`, `C36_responder_stack_defined`, `C36_two_messages_refuted`, `C36_one_reply_refuted`, `C36_format_safe`, `C36_validate_safe_partial`, `C36_short_tag_refuted`

### C37 HKDF conformance — proved

The key derivation computes HKDF-SHA256 extract and expand of the concatenated input key material with the handshake hash as salt and yields two 32-byte keys, each being a prefix-free block of the RFC 5869 output.

*Modelled and proved by:* equality with a transcription of RFC 5869.

*Result:* Equality with a transcription of RFC 5869, and where the keys of both sides come from.

*Theorems:* `C37_hkdf_is_rfc5869`, `C37_initiator_keys`, `C37_responder_keys`

### C38 Secret buffers and truncated MAC comparison — proved

Comparison of authentication tags returns true exactly for byte-wise equal sequences of equal length.

*Modelled and proved by:* delegated to libsodium; the length check is the code.

*Result:* proved as stated.

*Theorems:* `C38_secure_equals`

### C39 Certificate tool validity times — partial

A certificate created for a given number of days is valid from its start time for exactly that many days.

*Modelled and proved by:* 32-bit int arithmetic with overflow as UB; exact domain.

*Result:* Exact up to 24 days (C39_days_partial). False of the code from 25 days on: signed overflow (C39_overflow_refuted, for every such number of days); with wrapping arithmetic the end time is wrong, at most 24.86 days ahead, and in the past for 30 days (C39_wrapped_refuted).

*Theorems:* `C39_days_partial`, `C39_overflow_refuted`, `C39_wrapped_refuted`

### C40 Proxy session limit — partial

A listening proxy never has more than the configured number of sessions; a new connection is added, replacing the oldest session when there is no room; every session is removed and destroyed at most once, closes both its connections when it fails, does not affect the others, and is not used after it was destroyed.

*Modelled and proved by:* invariant over all schedules of the listener, sessions, posted handlers; exact characterisation of UB; witnesses.

*Result:* Proved for every schedule and every behaviour of the stacks: limit, identities, room, isolation, lifetime of sessions, and an exact characterisation of the undefined behaviour (C40_undefined). Partial: the oldest session is replaced only while its handshake has not succeeded (C40_evict_refuted: otherwise an invalid iterator is erased); C40_destroyed_refuted: use after free on a failure of the protocol side; C40_stuck_refuted: half closed sessions; C40_accept_refuted: one failed accept ends the listener.

*Theorems:* `C40_limit`, `C40_once`, `C40_room`, `C40_oldest_partial`, `C40_undefined`, `C40_defined_partial`, `C40_completions`, `C40_removed_silent`, `C40_removed_destroyed`, `C40_error_closes`, `C40_isolation`, `C40_evict_refuted`, `C40_destroyed_refuted`, `C40_stuck_refuted`, `C40_accept_refuted`

### C41 One transmission at a time — proved

An endpoint gives a frame to the lower layer only while that layer is ready to transmit, one frame at a time, and the next one not before the lower layer reported the end of the transmission.

*Modelled and proved by:* invariant linking the transmit flag, the link below and the calls pending on the stack.

*Result:* For a lower layer that keeps its promises and applications that call from their notifications only the endpoint or close.

*Theorems:* `C41_one_transmission`, `C41_busy_until_reported`

### C42 Quantum keys go to one subscriber and both ends agree — partial

A key received by the proxy is handed to the subscriber its identifier maps to and to no other, at most once per reception, and two proxies that received the same frame under an identifier hand out the same key for it.

*Modelled and proved by:* routing and store invariants over two proxies; witnesses.

*Result:* Routing, single use over all subscribers and agreement of two proxies proved for all histories. Refuted: zero subscribers divide by zero at the first key, a subscriber number no key maps to is accepted and starved, the stores of the two ends can diverge so that an offered key is unknown to the other end.

*Theorems:* `C42_one_subscriber`, `C42_single_use`, `C42_same_key`, `C42_defined_partial`, `C42_defined_refuted`, `C42_starved_refuted`, `C42_stores_diverge_refuted`

### C43 Certificates made by the tool are usable — partial

A certificate made by the certificate tool carries exactly the key of the public key file, the given times and level, and the signature of the private key file; a station configured with it and an authority certificate of the signing key starts exactly when the latter covers the former, and the peer then uses the certified key; a chain extended by the tool is accepted wherever the original chain leads to its last certificate, and chains can be extended up to the length stations accept; certificates reported as made can be used in some chain; a command that reports an error changes no file, and no command changes files other than its outputs.

*Modelled and proved by:* symbolic execution of each command, invariant over all command sequences, disk faults as oracle; witnesses.

*Result:* Creation, usability, appending and effects on files proved for all files, keys and disk faults. False of the code: chains of more than two certificates cannot be built by any sequence of commands (C43_two_levels_refuted), secret key files shorter than 64 bytes are read out of bounds (C43_short_key_refuted), unusable certificates are reported as made (C43_unusable_refuted), a failing write destroys an input that is also the output (C43_truncated_refuted), the same path for both keys loses the secret key (C43_same_path_refuted), a certificate made later for the same number of days as its authority's is refused (C43_same_days_refuted).

*Theorems:* `C43_create`, `C43_create_only`, `C43_short_key_refuted`, `C43_issued`, `C43_usable`, `C43_peer`, `C43_append`, `C43_append_extends`, `C43_defined_partial`, `C43_two_levels_refuted`, `C43_unusable_refuted`, `C43_outputs_only`, `C43_failed_partial`, `C43_truncated_refuted`, `C43_keys`, `C43_same_path_refuted`, `C43_end_to_end`, `C43_same_days_refuted`

### C44 End-to-end delivery between two endpoints — proved

With two endpoints connected by an arbitrary network, and assuming that messages cannot be forged under the session keys and that handshakes derive different keys: everything the receiving application reads is a piece of a buffer the sending application gave to its endpoint; within a session the data read is, unchanged, in order and without repetition, a part of the data the sender sealed under the matching key, without gaps in strict mode; the sender seals prefixes of the buffers in the order given, and never two messages under the same key and nonce.

*Modelled and proved by:* `Endpoint.v` (two independent runs), `PairSpec.v` (log of sealed messages as an automaton over the events, assumptions); the log is a simulation invariant, nonces under one key count from zero, then the receiver's accepted (nonce, payload) pairs index the log.

*Result:* Two runs of the endpoint model linked only by the assumption that a message the receiver got and that opens under the key of a session it established is one the sender sealed under this key (unforged), and that the sender's handshakes derived different keys (fresh_keys). The part about what is read needs an application that keeps the contract of the interfaces (reader_ok; opens_quietly for C44_origin); C44_delivery, about what is accepted, needs nothing from the receiver's environment. Order across sessions is not stated.

*Theorems:* `C44_log`, `C44_source`, `C44_delivery`, `C44_read`, `C44_origin`

### C45 UDP proxy sessions — partial

At any time the two ports of a UDP proxy are bound by the session started last and by nothing else. When an operation fails on a socket of an established session, or its protocol stack gives up, both its sockets are closed and a new session is started on the same ports; nothing else starts a session; what still happens on the sockets of a replaced session does not touch the current one, and the replaced session is destroyed once its operations have ended. The proxy process survives all errors of operations and goes on working.

*Modelled and proved by:* `UdpProxy.v` (sockets, stack and layer flags, references, nested error handler as a depth-bounded recursion), `UdpProxySpec.v` (ports held, sessions started and destroyed, from the events); invariant over all schedules; exact characterisation of failures; witnesses.

*Result:* Ports, restart after a failure on the protected side of an established session, isolation and destruction of replaced sessions proved for all schedules (C45_ports, C45_restart_partial, C45_restart_only, C45_replaced_harmless, C45_replaced_destroyed). The situations in which the process fails are characterised exactly (C45_undefined) and without them no history fails (C45_defined_partial). False of the code: a failure on the unprotected side of a working session ends the process, port in use or use after free (C45_raw_error_refuted); a failure on the protected side before the handshake succeeded leaves the proxy dead for ever (C45_dead_refuted); the first failure of an operation is ignored and the operation is not started again (C45_first_error_ignored).

*Theorems:* `C45_ports`, `C45_undefined`, `C45_defined_partial`, `C45_restart_partial`, `C45_restart_only`, `C45_replaced_harmless`, `C45_replaced_destroyed`, `C45_raw_error_refuted`, `C45_dead_refuted`, `C45_first_error_ignored`

### C46 The complete stack from the wire to the application — partial

A complete stack (link layer and crypto layer behind one object, as handed to the proxy) processes the bytes of its transport in any pieces: the messages it acts on are exactly payloads of frames for this station found one after the other in the bytes received; on a line between two stacks the second one acts on the messages of the first, in order, from the first on, and once notified it takes everything that arrived completely; every frame it sends is one well-formed frame with its configured addresses; one transmission is in progress at a time; replay protection, order of notifications, origin and order of the data delivered to the application hold as for the crypto layer; messages are taken only while the connection is open, each connection starts afresh, and frames for other stations on the line do no harm.

*Modelled and proved by:* `Stack.v` composes `LinkLayer.v` and `Endpoint.v`; a simulation shows that each run of the stack is a run of both, which lifts the theorems of both; `LinkLayerBus.v` for lines with several stations; witnesses. `StackDrain.v`: invariant that an idle open stack either still has a read in progress or its link layer has nothing complete left.

*Result:* Proved for all byte streams, partitions, schedules and configurations: C46_messages, C46_bus, C46_frames, C46_in_order, C46_one_transmission, C46_refines (every trace of the stack is a trace of the crypto layer over a lower layer that returns bytes), C46_no_replay, C46_origin, C46_delivery; C46_taken (after a notification, once everything is at rest, every frame that arrived completely was taken) and C46_all_taken for two stacks on a line; C46_listening if the connection is closed from outside the notifications. C46_origin and C46_delivery assume, as C44, that messages are not forged and that handshakes derive different keys. False of the code: after a frame for another station, or an empty one, nothing is received until the connection is closed (C46_deaf_refuted, for all such lines); a message can be taken and answered on a closed connection (C46_closed_refuted), bytes of an earlier connection are processed on the next one (C46_stale_refuted), and the first message of the next connection is lost (C46_first_lost_refuted). The transport's promise about readiness is an assumption of C46_one_transmission.

*Theorems:* `C46_messages`, `C46_bus`, `C46_deaf_refuted`, `C46_frames`, `C46_in_order`, `C46_one_transmission`, `C46_refines`, `C46_no_replay`, `C46_listening`, `C46_origin`, `C46_delivery`, `C46_closed_refuted`, `C46_stale_refuted`, `C46_first_lost_refuted`, `C46_taken`, `C46_all_taken`

### C47 Proxy configuration — partial

A configuration file is accepted exactly when everything it has to say is present and well formed (known names, numbers in their ranges, key files that hold a key of the right kind and length, every quantum key source known, every subscriber used once), and the proxy then has exactly the sessions, key sources, ports, addresses, roles, credentials and limits the file states, with the documented defaults for what it leaves out. Everything else is refused with an error, never with undefined behaviour. The proxy starts exactly when the file is accepted and its ports and credentials are usable; two proxies with matching files complete a handshake and agree on the algorithm and limits of the file; key files made by the certificate tool are accepted; settings in an accepted file are obeyed.

*Modelled and proved by:* `Config.v` models the reader over trees of mappings, lists and texts, with the conversions of yaml-cpp (text to number) and the machine (ports) as parameters; `ConfigSpec.v` states relationally what a file says; `ConfigFacts.v` proves reader and relation equivalent; `ConfigUse.v` connects accepted sessions to the endpoint, stack, handshake and tool theorems; witnesses modelled on the shipped example files.

*Result:* Proved for all files: C47_accepted (reading succeeds with a list of sessions exactly when the file states it, in the sense of ConfigSpec.says), C47_unambiguous, C47_registry, C47_stack (an accepted file yields stacks that satisfy the hypotheses of the endpoint and stack theorems), C47_settings, C47_pair (two matching files: the handshake completes with matching keys, the configured algorithm and limits; for chains short enough to be sent), C47_tool_keys, C47_launch (exact conditions under which the proxy runs). C47_defined_partial and C47_launch_defined_partial: no undefined behaviour, provided the durations in the file fit into 64-bit nanoseconds (and no session uses certificates). False of the code: a duration that does not fit overflows (C47_overflow_refuted); with certificates the configured algorithm is ignored (C47_certificate_algorithm_refuted); the names the shipped example files use for the session duration, its trigger and the baud rate are not looked at (C47_session_time_refuted, C47_baud_refuted); max_payload_size does not limit what is sent, and a smaller one makes a larger received message be decrypted past the buffer (C47_payload_refuted); accepted although useless: triggers above the limits and negative timeouts (C47_trigger_refuted), a time to live longer than the session (C47_pad_refuted), a subscriber the source never serves (C47_subscriber_refuted), a source without subscribers (C47_no_subscribers_refuted), a public key that is not the private key's (C47_key_pair_refuted), certificate files that hold none (C47_late_refuted: the first connection ends the process), a chain too long to be sent (C47_chain_refuted). The YAML text itself is parsed by yaml-cpp and not modelled.

*Theorems:* `C47_accepted`, `C47_unambiguous`, `C47_defined_partial`, `C47_registry`, `C47_stack`, `C47_settings`, `C47_pair`, `C47_tool_keys`, `C47_launch`, `C47_launch_defined_partial`, `C47_overflow_refuted`, `C47_certificate_algorithm_refuted`, `C47_session_time_refuted`, `C47_baud_refuted`, `C47_trigger_refuted`, `C47_pad_refuted`, `C47_payload_refuted`, `C47_subscriber_refuted`, `C47_no_subscribers_refuted`, `C47_late_refuted`, `C47_key_pair_refuted`, `C47_chain_refuted`

### C48 Delivery on a reliable line — proved

Two endpoints configured for each other (any handshake mode, any compatible settings) and connected by a line that neither loses nor changes nor reorders messages and delays them by less than half the time to live: in every state they can reach, what either application has read is the beginning of what the other application gave to its endpoint, byte for byte; whenever nothing is left to do, both applications have been told that the layer is open and each has read exactly what the other one gave; and that state is always reached: no step gets stuck, and whatever the order of the remaining steps, after finitely many of them everything given so far is delivered, unless they take longer than the time to live allows.

*Modelled and proved by:* `Line.v` puts two `Endpoint.v` executions over a line with queues, transmission status, clocks and re-entrant application calls; `LineSpec.v` states compatibility of the configurations, what was given and got, and rest. Inductive invariant over the joint execution (`LineFacts.v`): the phase of each side, the messages sent as sealed chunks with consecutive nonces, the times of the handshake, and for each side where the unread and unsent data are; the handshake steps are computed from the session agreement of C22. For delivery, every step is shown possible for every answer of the environment, and a weight of what is left to do (`LineCost.v`) falls with every step (`LineLive.v`).

*Result:* C48_prefix, C48_all_delivered (safety), C48_never_stuck and C48_inevitable (every schedule of the remaining steps delivers everything: well-founded, no fairness assumption) for all compatible pairs; C48_instance and C48_inevitable_instance: concrete runs of all four kinds of configuration to such states. One session: no timer expires, the connection stays open, the conversation ends before the limits of the session; what happens otherwise is the subject of C27, C28, C33 and C44. C48_inevitable is for finite conversations: the applications offer no more data while the rest is delivered (they may read at any time). The line carries messages; frames over byte streams are C46.

*Theorems:* `C48_prefix`, `C48_all_delivered`, `C48_never_stuck`, `C48_inevitable`

### C49 Two TCP proxies back to back are a transparent pipe — proved

Two TCP proxies, one with an initiator and one with a responder stack configured for each other, their protected sides connected by a reliable line: whatever the two clients send and when, what comes out of either proxy is always a beginning of what the client of the other proxy has sent, byte for byte; data being written to a client does not change meanwhile, a receive buffer is not reused while its data is still being sent, and no data is refused by the stack; and everything the clients have sent comes out in the end, whatever the order in which the proxies and the completions of their socket operations run.

*Modelled and proved by:* `Tunnel.v` adds to both sides of `Line.v` the upper layer of the proxy (`AsioUpperLayer.h` over `AsioTcpSocketWrapper.h`) as the application of the stack, with its socket: what the client sent, whether a read or a write is in progress and on which buffer. `TunnelSpec.v` states what came out, rest and the use of the buffers. Every execution is an execution of `Line.v` (`tunnel_line`), so the invariant of C48 holds; an invariant of the upper layer (`stn`: a read is in progress exactly when the stack is open and idle, a write exactly while the stack's payload is held for it, nothing is between the socket and the stack) links the sockets to the stacks. For progress, the weight of C48 plus that of the unread data falls with every step (`TunnelLive.v`).

*Result:* C49_prefix, C49_all_delivered, C49_buffers (safety) and C49_inevitable (every schedule gets everything through) for all compatible pairs of stacks, all client data, all read sizes; C49_instance and C49_inevitable_instance: all four kinds of configuration. One session: the sockets stay open, no operation on them fails, and the protected line is reliable (as in C48); connection failures are C40 and C45, the bytes on the protected connection C46. C49_inevitable is for what the clients have sent: they send no more while the rest gets through.

*Theorems:* `C49_prefix`, `C49_all_delivered`, `C49_buffers`, `C49_inevitable`

### C50 After any history, a new connection works like the first one — partial

Whatever happened to two endpoints before - any number of connections, handshakes that succeeded, failed or were abandoned, messages from anybody, transmissions and unread data at the time of the close, expired timers - if their connections are closed and they are then connected by a reliable line, the new connection behaves like the first one (C48): a new session is established, each application reads exactly what the other one gives to its endpoint over the new connection, nothing of the past reappears, nothing is lost and no step gets stuck.

*Modelled and proved by:* `RecoverSpec.v`: `disconnected`, the states of an endpoint after any run of `Endpoint.v` in a fair environment, when the connection is closed. `RecoverFacts.v`: the invariants of C24 (`winv`), of C27 (`hinv`) and two new ones (the flag of the layer, the required-flag of the responder) show that such a state is like a new one in everything the invariant of C48 needs (`openable`); the handshake lemmas of C48 hold for arbitrary leftovers in the handshake and session objects. Then the proofs of C48, from `start_line` instead of `new_line`.

*Result:* Proved for applications bound to the crypto layer, and for applications that read through the stack object and whose last read before the new connection returned nothing. False otherwise: C50_stack_flag_refuted (the flag of the stack object survives the close and the first data of the new connection is lost). Environment of the past: [fair] (lower layer keeps ILowerLayer.h, the application only transmits while 'open' is notified and does not close before the handshake is completed; as in C27). On the new connection no timer expires, as in C48. Non-vacuity: C50_instance, C50_inevitable_instance, with sessions that had data in both directions and a transmission in progress at the close.

*Theorems:* `C50_prefix_partial`, `C50_all_delivered_partial`, `C50_never_stuck_partial`, `C50_inevitable_partial`, `C50_stack_flag_refuted`

### C51 The key emulator and what its readers get — partial

The QIX emulator, in each of its writing modes, sends every intended key exactly once, in order, to all its ports: the bytes on every port are the frames of the keys (all random keys drawn, all lines of the input up to the first that is not 256 characters 0 and 1, one key per period of the clock), a reader at the other end prints exactly these identifiers and keys however the bytes are split, and if a device fails the program ends with an error and the ports differ by at most one frame. Identifiers increase. Every key can be spelled by exactly one line. A time-based frame is sent when the millisecond that is its identifier has come, and proxies fed by different time-based emulators agree on the key of every identifier. Unusable arguments are refused and nothing is written. Keys are sent at the configured rate, no key is sent twice, and every subscriber gets keys.

*Modelled and proved by:* `Emulator.v` models the program with the readings of the clocks, the drawn keys, the input lines and the behaviour of the devices as inputs; its result is a log of writes, prints and pauses. `EmulatorFacts.v` reduces all modes to one function that writes a list of frames, by induction on the inputs; the bits of a line by `N.testbit`; C31 (round trip) for the reader, C42 for the key source; Bezout for the subscribers.

*Result:* Proved except the last sentence, which is false: C51_rate_refuted and C51_pause (the emulator adds the time of the writing to the period instead of subtracting it), C51_too_fast_refuted (the period is cut to milliseconds), C51_clock_back_refuted (a clock set back makes the emulator send the same key again, and a proxy hands it out again), C51_starved_refuted and C51_second_subscriber_refuted (all identifiers are multiples of the period, so with 2 subscribers and a period of 1000 ms the second one never gets a key; C51_served_partial: without a common divisor everybody is served), C51_no_port_refuted (keys from the standard input without any port: success, nothing written). C51_ids_increase assumes for the time-based mode that the clock is not set back; clocks between 1970 and 2262. SHA-256 is a parameter (32 bytes). Non-vacuity: C51_instance_*.

*Theorems:* `C51_written`, `C51_all_written`, `C51_arguments`, `C51_read_back`, `C51_lines`, `C51_ids_increase`, `C51_on_time`, `C51_clock_back_refuted`, `C51_emulators_agree`, `C51_starved_refuted`, `C51_served_partial`, `C51_pause`, `C51_rate_refuted`, `C51_too_fast_refuted`, `C51_no_port_refuted`

### C52 Renewing the session does not disturb the applications — partial

When the session timer of the initiator expires, a new session is agreed on over the existing connection while the old one stays in use; over a reliable line, however often this happens: what either application has read since the connection exists is the beginning of what the other application gave to its endpoint, byte for byte; neither application is told that the layer closed; the renewal completes whatever the order of the steps, unless they take longer than the time to live allows; afterwards both sides use the new session, everything given is delivered and the initiator is ready for the next renewal.

*Modelled and proved by:* `Renew.v` lets the session timer expire on top of the two endpoints of `Line.v`; `RenewSpec.v` describes all connections with any number of renewals. Simulation (`RenewFacts.v`): a connection that is being renewed is related to a ghost connection whose sessions and notifications of the past are hidden and which has just been opened; its steps are those of C48, so the invariant and the liveness of C48 apply to the ghost and are carried back; at rest, the two coincide and the next renewal can begin.

*Result:* Proved with the restriction that the applications offer no data while a renewal is under way (they may read, and what was offered before the last session is still delivered; the timer expires while nothing is left to do): C52_prefix_partial, C52_all_delivered_partial (includes that the session in use is a new one and the timer runs again), C52_inevitable_partial, for any number of renewals in a row. Without the restriction the claim is false: C52_busy_renewal_refuted (data offered by the application of the initiator between its authentication message and the answer is sent under the old session and dropped by the responder, which uses the new one already; nobody is told). C52_instance, C52_inevitable_instance: concrete runs of all four kinds of configuration with data before and after a renewal, with fresh random numbers and keys. The era may also begin with an open connection after any history (C53).

*Theorems:* `C52_prefix_partial`, `C52_all_delivered_partial`, `C52_inevitable_partial`, `C52_busy_renewal_refuted`

### C53 An open connection recovers from whatever was lost — proved

Whatever happened over an open connection (messages lost, changed, forged, repeated or too late, handshakes that failed or are half done, one side with a session and the other without): once nothing is under way, a timer of the initiator is running (unless its configuration was found to be bad); when its timers expire and the line works from then on, a new session is agreed on over the same connection, whatever the order of the steps (unless they take longer than the time to live allows), both applications know that the layer is open, and from then on everything either application gives to its endpoint is delivered to the other and the session can be renewed again. Neither side has to close the layer, and neither has to be restarted. If neither side has a session, the applications may offer data and read at any time meanwhile.

*Modelled and proved by:* `Resume.v` lets the timers of the initiator expire in any state (response timer, retry timer, session timer); `RenewSpec.v` has the resumed connection as a second beginning of an era. The simulation of C52 does not need the two old sessions to fit together, as the ghost connection hides them (`era_again`, `resumed_inv`); that a timer is running after any history is the invariant of C27 (`history_due`).

*Result:* C53_recovers (a timer is running; inevitably a new session), C53_afterwards (prefix, delivery and the new session afterwards, with any number of renewals), C53_without_session (data at any time if neither side has a session). Conditions, in the statements: no data is waiting to be sent or read, no transmission is under way and no further handshake was already asked for (`undisturbed`); the configuration was not found to be bad (a known defect: C27_retry_partial, C34); while one side still has an old session the applications offer no data until the new one is agreed on, as in C52 (C52_busy_renewal_refuted shows why); the steps are fast enough. Nothing is assumed about the history of the two sides except that the layers around them keep their promises (RecoverSpec `fair`). C53_recovers_instance, C53_without_session_instance: concrete histories of all kinds of configuration where the request or the answer of the responder was lost.

*Theorems:* `C53_recovers`, `C53_afterwards`, `C53_without_session`

### C54 What the certificate tool shows is what is in the file — proved

When the certificate tool is asked to show a file, it shows it completely exactly when the file can be read and holds a key or a chain whose certificates are well-formed. The text then gives the type, and the length and every byte of the key, or for every certificate its signature, its body byte by byte, and the times, signing level, key type, key and extensions the body means. The text can be read in only one way: two files for which the same text is shown are identical byte for byte, so nothing in a file escapes the reader. The text shown at the end of creating a certificate is that of the certificate in the file, with the requested times and level and the key of the given file. What is given to the log about a protocol message determines the whole message.

*Modelled and proved by:* `Print.v` has the print functions of all messages, the console printer and the text of `icftool --show`; `PrintSpec.v` is a grammar of the texts, independent of the printing. `PrintFacts.v` shows that the printed text is in the grammar (`display_shows`, with `display_only` for the converse by `print_contents` of `Icf.v`), and that every production of the grammar is deterministic: a text has at most one content and, followed by anything, one end (the det lemmas; where a hex dump ends follows from the length shown before it).

*Result:* C54_shows (complete exactly when there is something well-formed, and then as the grammar of PrintSpec says), C54_unambiguous and C54_determines (one way to read the text; equal texts, equal files), C54_created (what is shown after creation), C54_messages (log items determine the message; the items given to the printer, as their formatting is done by log4cpp, which is not in the repository). The grammar (decimal numbers, hexadecimal lines of at most 16 bytes, numbered certificates, numbered extensions) uses nothing of the model. Texts are compared for the same file name, as the name is arbitrary text. C54_key_instance and C54_chain_instance: whole texts computed by the model for a key and for two certificates with extensions.

*Theorems:* `C54_shows`, `C54_unambiguous`, `C54_determines`, `C54_created`, `C54_messages`

### C55 The certificate tool does what its command line asks for — partial

Of the options of a command line of the certificate tool the first one in a fixed order counts. The action it asks for is carried out with the files in the order they are given, the days and the level that are given or that are typed (the first number typed is the days; the first further number up to 6 is the level, larger ones are refused), and the program ends, reporting an error exactly when the action fails. Showing shows the files in the order they are given, up to the first that cannot be shown. With help, no option, a wrong number of files or a value that cannot be converted nothing is done. Whatever is given or typed, only the files named as outputs of that action can change. The program always ends, its exit status tells whether the action was carried out, and no certificate is made with a level or days that were not entered.

*Modelled and proved by:* `Program.v` has `Program::run`, the interactive input (formatted extraction of numbers from a stream with its failbit, character by character) and what is written to std::cout, on top of `Icf.v` and `Print.v`. `ProgramSpec.v` describes typed text as blanks, digits and rest, and a command line by the first option in a list; it does not use the functions of the model. `ProgramFacts.v`: extraction of a typed number by induction on the text, the loop for the level by induction on the numbers typed; then case analysis over the options.

*Result:* Proved except the last sentence: C55_requested, C55_show, C55_nothing, C55_outputs_only, C55_certificate (from the command line to the certificate and the text of C54), C55_ends_partial (the program ends unless the level is asked for; it ends if a level is typed). The last sentence is false: C55_hangs_refuted (the input ends or a number of 2^32 or more is typed when the level is asked for, or the days were not a number: std::cin stays failed and the loop never ends), C55_level_refuted (a word typed as the level is taken for 0: an end-entity certificate is signed), C55_days_refuted (a word, or no input, instead of the days: a certificate valid for no time is signed), C55_exit_refuted (the exit status is always 0). Not modelled: argagg (the command line is given as parsed), the text written to std::cerr; std::cin >> unsigned as in libstdc++. C55_certificate_instance, C55_defects_instance, C55_show_instance: concrete runs.

*Theorems:* `C55_requested`, `C55_show`, `C55_nothing`, `C55_outputs_only`, `C55_certificate`, `C55_ends_partial`, `C55_hangs_refuted`, `C55_level_refuted`, `C55_days_refuted`, `C55_exit_refuted`

### C56 From the configuration files to the clients — partial

Two proxies that are started with configuration files that fit together (credentials of the same kind that belong together; addresses and ports that face each other; buffers of at least 1024 bytes; a time to live of at least twice the delay of the line) carry what their clients send: what comes out at one proxy is always the beginning of what the client of the other one sent, byte for byte, and all of it comes out in the end, unless the line is slower than the files allow. In particular for the configuration files that come with the proxy, with keys made by the certificate tool. If the link addresses in the two files do not face each other, nothing is ever received.

*Modelled and proved by:* `DeploySpec.v` says what it means that a proxy runs with a file (over `launch` and `on_connected` of `Config.v`), that two files are meant for each other and that they face each other; no settings are fixed. `DeployFacts.v` derives from that, with C47 (`says`, the created stacks), every condition of `compatible` (`LineSpec.v`), so that C48 and C49 apply. `Shipped.v` is generated from the YAML files of /repo/config/proxy; that they are accepted is proved by symbolic execution of the reader, for any disk with keys of the right kind at the named places and any keys.

*Result:* Proved except for some of the shipped files: C56_pipe, C56_comes_out and C56_stacks (for every two files that fit together, any settings, over the models of C47, C48 and C49), C56_frames_arrive and C56_misaddressed (over TCP, through the link layer, in any pieces), C56_shipped_secret (the files of config/proxy/shared_secret, TCP and UDP), C56_shipped_preshared_udp, C56_quickstart (from the key generator on, for every secret). False for the others: C56_shipped_preshared_tcp_refuted (the two files have the same link addresses and ports: neither proxy reaches the other), C56_shipped_qkd_refuted (three of the four files for QKD are refused: no metrics entry), C56_shipped_ignored_refuted (two settings of the initiators' files have names the reader does not know: changing them changes nothing). The files are read from /repo/config/proxy by tools/shipped.py into Shipped.v; decimal conversion as in yaml-cpp for plain decimal numbers. That the line between the proxies neither loses nor reorders anything is assumed (for UDP too), and the key agreement accepts every key. Instances: C56_shipped_instance, C56_shipped_preshared_instance, C56_misaddressed_instance, C56_shipped_qkd_initiator.

*Theorems:* `C56_pipe`, `C56_comes_out`, `C56_stacks`, `C56_frames_arrive`, `C56_misaddressed`, `C56_shipped_secret`, `C56_shipped_preshared_udp`, `C56_shipped_preshared_tcp_refuted`, `C56_shipped_qkd_refuted`, `C56_shipped_ignored_refuted`, `C56_quickstart`

### C57 Statistics — partial

The statistics a layer shows (get_statistics) are exact: every session message given to a session is counted in exactly one of the counters of received messages, as a success exactly when it is accepted, otherwise under the reason for which it is rejected (no session, not authentic, too old, bad nonce); the number of initialized sessions is the number of successful handshakes; nothing else changes a counter, no counter decreases before it has reached 2^64, resetting and exchanging sessions keep them, and the counters have no influence on what the layer does.

*Modelled and proved by:* `Statistics.v` models the counters, where the functions of the two sessions bump them (in the order of `Session.cpp`, modulo 2^64), and what an endpoint does to them in each step. `StatisticsSpec.v` counts answers and events of the trace without looking at the counters. Induction over the calls (each call bumps exactly what its answer stands for) and over the run of the endpoint (each handler's bumps agree with the events it emits); C57_meaning uses the characterization of validation of C11 to C13.

*Result:* Proved: C57_counters (each counter is the number of the answers it stands for, modulo 2^64, after every sequence of calls on the two sessions), C57_once_partial (every message counted exactly once, as a success exactly when accepted, if none comes outside of the time of the session and no authentic one is empty), C57_balance (without these conditions), C57_meaning (what each counter says about a message, in terms of the key, the times and the nonce), C57_passive, C57_endpoint and C57_no_more_than_received (for all runs of an initiator or responder). False in the two excluded cases: C57_outside_refuted (a message before the start or after the end of the session is counted nowhere), C57_empty_refuted (an authentic message without data is rejected and counted as a success and as a failed authentication). Instances: C57_instance, C57_endpoint_instance.

*Theorems:* `C57_counters`, `C57_once_partial`, `C57_balance`, `C57_outside_refuted`, `C57_empty_refuted`, `C57_meaning`, `C57_passive`, `C57_endpoint`, `C57_no_more_than_received`

## 6. Findings about the code

Each item is a theorem about the model of the code as it is (name in parentheses) unless it says "read, not proved".

1. The link layer wedges after a frame that is not for this station or is empty: nothing is delivered until the
   connection is closed (`C08_progress_refuted`).
2. Closing the link layer keeps the unread remainder and the processing flag (`C09_*_refuted`); the stack object's own flag is never
   reset (`C34_stack_flag_refuted`).
3. The link parser misses a frame preceded by the byte 07 (`C05_resync_refuted`).
4. A transmission that fails in the crypto layer leaves the data, which is sent in the *next* session
   (`C33_stale_data_refuted`), or blocks transmission for good (`C33_blocked_refuted`); the unread payload then makes
   the endpoint deaf (`C34_deaf_refuted`). Data sent in the authentication message is lost when the
   handshake fails (`C33_lost_in_handshake_refuted`).
5. Out-of-bounds reads: AES-GCM tag length, reply ephemeral key length, certificate key length are not checked
   (`C36_*_refuted`): two fixed messages crash every shared-secret responder, seven bytes every initiator with preshared
   public keys, without any key (`C36_two_messages_refuted`, `C36_one_reply_refuted`); longer AES-GCM tags are accepted (C21).
6. The transmit buffer bound ignores the 16-byte tag for small payload limits (`C20_smaller_payload_refuted`).
7. Certificate validity is never compared with the clock (`C30_expired_rejected_refuted`); shared-secret and QKD
   responders do not check the requested handshake mode (`C35_mode_not_checked_refuted`).
8. An authenticated message without user data is rejected but uses its nonce (C17).
9. Re-entrant calls inside "open": C27_timer_refuted, C34_read_in_open_refuted, C28_close_in_open_refuted.
10. QIX: overlapping memcpy, lost frames and permanent loss of synchronisation (C31), "backwards" judged against the keys
    held (C32), zero subscribers divide by zero, starved subscribers, diverging stores (C42).
11. icftool: overflow from 25 days on (C39); only two-certificate chains can ever be built, short secret keys read out
    of bounds, unusable certificates reported as made, a later certificate for the same number of days as its
    authority is refused (C43).
12. TCP proxy: evicting an established session erases through an invalid iterator; a failure of the protocol side
    destroys the session inside its own call-back; half-closed sessions stay; one failed accept ends the listener (C40).
13. UDP proxy: an error on the unprotected side of a working session runs the error handler twice and ends the process
    (port in use, or use after free); an error on the protected side before the handshake succeeded leaves the proxy
    dead; the first error of a receive is ignored and the receive is not started again (C45).
14. An empty buffer is accepted for transmission, but the application is never told that it may transmit again
    (`C33_empty_refuted`): a zero-length datagram makes the UDP proxy deaf on its unprotected side.
15. Complete stack: on a line with several stations the first frame for another one makes the stack deaf
    (`C46_deaf_refuted`); a request received together with data is answered after the application closed the connection
    (`C46_closed_refuted`); after a reconnect bytes of the old connection are processed (`C46_stale_refuted`) and the
    first frame of the new one is dropped (`C46_first_lost_refuted`).
16. Read, not proved: the initiator does not check the version in the reply; `gen_keypair_x25519` tests Ed25519 support;
    AES-256-GCM hardware availability is never checked; `SessionModes.cpp` defines a type that does not exist. A responder whose answer to the session authentication
    fails keeps the session active without opening the upper layer; rejected data of the proxy's unprotected side is lost; `icftool --level` is not checked against [0,5].
17. Proxy configuration (C47): durations overflow silently; certificate mode ignores the configured algorithm; the shipped
    example files use three setting names the reader does not know (silently ignored); `max_payload_size` does not limit what
    is sent and, when lowered, makes AES-GCM write past the receive buffer; useless settings (trigger above the limit,
    negative timeout, time to live longer than the session, unserved subscriber, zero subscribers, foreign public key, too
    long chain) are accepted; bad certificate files of a TCP session end the process at the first connection.
18. The flag "the application is reading" of the stack object survives a close: the first data of the next connection can be
    lost (`C50_stack_flag_refuted`).
19. Emulator (C51): it computes the elapsed time with the wrong sign and so sends at a lower rate than configured; rates that
    do not divide 1000 are exceeded; a clock that is set back makes it send used keys again; a period that has a common
    divisor with the number of subscribers starves some of them (1000 ms and 2 subscribers).
20. Renewal (C52): the initiator sends data it is given between its authentication message and the answer under the old session,
    the responder uses the new one already and drops it silently, on a line that loses nothing (`C52_busy_renewal_refuted`).
21. The certificate tool (C54): the indentation grows with every certificate of a chain (`push_indent` at Actions.cpp:232 is not undone);
    nested structures are printed without their names; a chain with a malformed certificate is shown up to its envelope, then an
    exception is thrown. The text is unambiguous all the same.
22. The certificate tool (C55): after anything that is not a number was typed for the days, or at the end of the input, the loop
    for the level never ends; a word typed as the level is taken for 0 and an end-entity certificate is signed; a word typed as the days
    gives a certificate valid for no time; `--level` accepts up to 255 although the help says [0, 5] and the prompt 6; the exit
    status is 0 whatever happened.
23. Of the configuration files that come with the proxy (C56), those for preshared keys over TCP cannot work together: both have local
    address 10 and remote address 1, listen on port 20000 and connect to 20001. Three of the four files for QKD are refused because
    `qkd_sources` lacks `metrics`.
24. Statistics (C57): a message that arrives before the start or after the end of the session is counted nowhere; an authentic message without
    data is counted twice, as a success and as a failed authentication.
25. `max_session_duration` and `session_time_renegotiation_trigger` in the shipped files have no effect, whatever is written there
    (`C56_shipped_ignored_refuted`): the reader looks for `max_session_time_ms` and `session_time_renegotiation_trigger_ms`.

## 7. Wrong programs

`tools/mutate.py tools/mutants*.json` edits one definition of the model in a scratch copy, rebuilds, and records in
`seeded/LOG.jsonl` which theorems no longer prove. A claim that an edit makes false while its theorem still proves is a
weak theorem and was tightened (field `theorems_tightened`).

435 edits so far: 432 detected, 2 NOT, 1 equivalent. Edits after which a theorem was tightened: 3.
