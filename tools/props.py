import json
P=[]
def p(id,title,statement,quantifier,why,anchors):
    P.append(dict(id=id,title=title,statement=statement,quantifier=quantifier,why_tests_cant=why,anchors=anchors))
L='cpp/libs/ssp21/src/link/'; C='cpp/libs/ssp21/src/crypto/'; I='cpp/libs/ssp21/include/ssp21/'; Q='cpp/libs/qix/src/'
p('C01','Link frame round trip','If a sender formats a link frame with any destination, any source and any payload that fits the receiver\'s maximum payload, and the receiver\'s frame parser is idle, then feeding the frame bytes to the parser in any sequence of chunks yields exactly one frame, with exactly that destination, source and payload, and consumes exactly the bytes of the frame.','all addresses, all payloads up to the configured maximum, all ways of cutting the byte stream into chunks','The payload space and the set of chunkings are unbounded; tests use a handful of frames and one or two cuts.',[L+'LinkFrameWriter.cpp:LinkFrameWriter::write',L+'LinkParser.cpp:LinkParser::parse'])
p('C02','Link parsing is independent of chunk boundaries','For any byte stream, the sequence of frames the link parser delivers and its final state depend only on the concatenation of the bytes given to it, never on how reads from the transport split them.','all byte streams, all parser states reachable, all partitions into reads','Exponentially many partitions of unboundedly long streams.',[L+'LinkParser.cpp:LinkParser::parse',L+'LinkLayer.cpp:LinkLayer::parse'])
p('C03','No frame is invented','Every frame the link parser ever delivers occurs contiguously in the received byte stream as two sync bytes, a header whose CRC is correct, and a body whose CRC is correct, with length field equal to the payload length and at most the configured maximum; different delivered frames come from disjoint, in-order stretches of the stream.','all byte streams (including adversarial), all parser histories','Adversarial input space is infinite; resynchronisation re-parses a buffer in place.',[L+'LinkParser.cpp'])
p('C04','Link parser memory safety','For any byte stream, the link parser never reads or writes outside its receive buffer and every call terminates, consuming at least one byte or reporting a frame.','all byte streams, all configured maximum payload sizes, all chunkings','Out-of-bounds access depends on adversarial lengths and on in-place re-parsing of the header; tests sample few.',[L+'LinkParser.cpp:LinkParser::parse_many',L+'LinkParser.cpp:LinkParser::transfer_data'])
p('C05','Resynchronisation after noise','After any amount of line noise or corrupted frames, a subsequent intact frame is delivered provided the preceding bytes do not form the start of a plausible frame that swallows it.','all noise prefixes, all intact frames','Unbounded noise prefixes.',[L+'LinkParser.cpp:LinkParser::parse_sync1',L+'LinkParser.cpp:LinkParser::parse_sync2',L+'LinkParser.cpp:LinkParser::parse_header'])
p('C06','CRC error detection','The link CRC implemented by the table is the remainder of polynomial division by the documented generator; corrupting any frame section by a single bit, or by any burst spanning at most 32 bits, is always detected whatever the length of the section.','all messages of all lengths, all error patterns of burst length <= 32','Message space and positions are unbounded; a wrong table entry only shows for particular bytes.',[L+'CastagnoliCRC32.cpp',I+'link/CastagnoliCRC32.h'])
p('C07','Link layer address filtering','The link layer delivers to the layer above only payloads of frames addressed to its own local address, in stream order and each at most once; every frame the layer above transmits carries the configured local and remote addresses.','all byte streams, all interleavings of transport reads and upper-layer reads','Interleavings of asynchronous reads with frames for other stations are unbounded.',[L+'LinkLayer.cpp'])
p('C08','Link layer progress','As long as the transport delivers bytes and the layer above keeps reading, a valid frame for the local address is delivered even if it is preceded by valid frames for other addresses or by empty frames.','all streams of valid frames','A single ordering of foreign frames can wedge the receiver; tests only use frames for the local station.',[L+'LinkLayer.cpp:LinkLayer::start_rx_from_upper_impl',I+'stack/ILowerLayer.h'])
p('C09','Link layer isolation across connections','Bytes received before the transport closes have no influence on what is delivered after the transport reopens.','all histories with a close/reopen','Depends on what was buffered at the moment of the close.',[L+'LinkLayer.cpp:LinkLayer::on_lower_close_impl'])
p('C10','Message codec round trip','For every handshake request, handshake reply, handshake error, session data message, certificate body, certificate envelope, certificate chain and container file whose fields respect their ranges, formatting succeeds when the buffer is large enough and parsing the produced bytes yields the same field values.','all field values, all variable-length sequences up to their limits','Field space is unbounded.',[C+'gen/RequestHandshakeBegin.cpp',C+'gen/ReplyHandshakeBegin.cpp',C+'gen/ReplyHandshakeError.cpp',C+'gen/SessionData.cpp',C+'gen/CertificateBody.cpp',C+'gen/CertificateEnvelope.cpp',C+'gen/CertificateChain.cpp',C+'gen/ContainerFile.cpp',I+'crypto/SeqByteField.h',I+'crypto/SeqStructField.h',C+'VLength.cpp'])
p('C11','Message codec canonicity','Every byte sequence a message parser accepts is exactly the byte sequence the formatter produces for the parsed values; hence two different byte sequences never parse to the same message and a peer cannot create an alternative encoding of a signed or hashed message.','all byte sequences','All byte sequences must be considered; malleability hides in rare encodings.',[C+'VLength.cpp:VLength::read',C+'MessageParser.h',C+'gen/RequestHandshakeBegin.cpp',C+'gen/ReplyHandshakeBegin.cpp',C+'gen/ReplyHandshakeError.cpp',C+'gen/SessionData.cpp',C+'gen/CertificateBody.cpp',C+'gen/CertificateEnvelope.cpp',C+'gen/CertificateChain.cpp',C+'gen/ContainerFile.cpp'])
p('C12','Variable-length integer codec','Variable-length lengths round trip for all 32-bit values, use the unique shortest encoding, take exactly the number of bytes announced by the size function, and reading never consumes more than available.','all 2^32 values and all byte sequences','2^32 values times all suffixes.',[C+'VLength.cpp'])
p('C13','Parsers reject exactly the malformed inputs, within limits','Message parsers reject trailing bytes, truncated input, unknown enumeration values, wrong function codes and collections beyond their limit; formatting either fails without overrunning the destination or writes exactly the announced size.','all byte sequences, all destination sizes','Unbounded inputs; destination size interplay.',[C+'MessageParser.h',C+'MessageFormatter.h',I+'crypto/SeqStructField.h'])
p('C14','Replay protection','Within one session no received message is accepted twice: the nonces of accepted messages strictly increase, the first accepted message has nonce zero, in strict-increment mode every accepted nonce is exactly one more than the previous, and no nonce ever wraps or exceeds the negotiated maximum.','all sequences of received messages, both nonce modes, all times','All histories of 2^16 nonces and replays.',[C+'Session.cpp:Session::validate_session_auth',C+'Session.cpp:Session::validate_session_data',C+'NonceFunctions.h'])
p('C15','Transmit nonces are never reused','Within one session every transmitted message carries a distinct nonce, starting at 0 and increasing by 1; failed transmissions consume no nonce; once the maximum is reached nothing more is transmitted.','all interleavings of successful and failed transmissions','Nonce reuse under one key breaks AES-GCM; depends on every failure path.',[C+'Session.cpp:Session::format_session_data_no_nonce_check',C+'Session.cpp:Session::format_session_auth'])
p('C16','Session lifetime and time-to-live','A session neither accepts nor produces any message before its start time or after its maximum duration, and never accepts a message after the valid-until time it carries; every produced message carries a valid-until no later than the end of the session.','all clocks (including rollback), all durations, all ttl values','Clock values are unbounded and can roll back.',[C+'Session.cpp',I+'crypto/CryptoLayerConfig.h'])
p('C17','Rejected messages have no effect','If a received session message is rejected, nothing except statistics changes: keys, nonces, validity and any later decision are as if the message had not arrived.','all states, all messages','All states x all inputs.',[C+'Session.cpp'])
p('C18','Authentic, in-order, at-most-once delivery','Assuming the AEAD cannot be forged, whatever the network does (drop, duplicate, reorder, inject, modify), the sequence of user data delivered by the receiving session is a subsequence, in order and without repetition, of the data the peer transmitted in that same session; in strict mode it is a prefix of it.','all adversarial network behaviours, all interleavings','Adversary is unbounded.',[C+'Session.cpp',C+'SessionMode.cpp'])
p('C19','Fragmentation preserves user data','When an upper layer transmits a buffer of any size, the user data of the transmitted messages concatenates to exactly that buffer, each fragment being non-empty and no longer than the negotiated limits.','all buffer sizes','Unbounded buffers and limits.',[C+'SessionMode.cpp',C+'TxState.h',C+'CryptoLayer.cpp:CryptoLayer::check_transmit'])
p('C20','Session messages always fit','With the maximum link payload used by the library stacks, formatting a session message never fails for lack of buffer space, whatever the user data.','all user data, all crypto modes, all configured payload sizes','Sizes interact across three buffers.',[C+'Session.cpp:Session::Session',I+'crypto/BufferTypes.h',C+'SessionMode.cpp'])
p('C21','MAC input is unambiguous','Two different (metadata, payload) pairs are never authenticated by the same MAC input, encrypt-then-decrypt returns the payload, and a modified metadata, payload or tag is rejected unless the MAC collides.','all metadata, payloads and tags','Unbounded payloads.',[C+'MacAdapters.h',C+'SessionMode.cpp'])
p('C22','Handshake key agreement','For shared secret, quantum key and public key modes, if the initiator receives the responder\'s reply to its request unmodified, both sides derive session keys such that each side\'s transmit key is the other\'s receive key, and use the same constraints, nonce mode and crypto mode.','all keys, nonces, key ids, configurations','Unbounded key material.',[C+'SharedSecretInitiatorHandshake.cpp',C+'SharedSecretResponderHandshake.cpp',C+'QKDInitiatorHandshake.cpp',C+'QKDResponderHandshake.cpp',C+'PublicKeyInitiatorHandshake.cpp',C+'PublicKeyResponderHandshake.cpp',C+'Algorithms.cpp',C+'TripleDH.h'])
p('C23','Transcript binding','Assuming the hash is collision resistant and the key derivation is injective in its inputs, if both sides end up with matching keys then they agree on every byte of the handshake request and reply (hence on version, algorithms, constraints and certificates): downgrade by modification of the handshake is impossible.','all adversarial modifications','Adversarial input space.',[C+'SharedSecretInitiatorHandshake.cpp',C+'SharedSecretResponderHandshake.cpp',C+'QKDInitiatorHandshake.cpp',C+'QKDResponderHandshake.cpp',C+'PublicKeyInitiatorHandshake.cpp',C+'PublicKeyResponderHandshake.cpp'])
p('C24','Unauthenticated input cannot disturb an established session','Handshake requests, replies, errors and session messages that do not authenticate never change an endpoint\'s active session or close the upper layer; on the responder the active session is replaced only by a session-authentication message that verifies under the pending session.','all message sequences and states','All adversarial interleavings.',[C+'Responder.cpp',C+'Initiator.cpp',C+'CryptoLayer.cpp'])
p('C25','Upper layer opens only on an authenticated session','The upper layer is told it is open only after a message authenticated under the newly derived keys has been received from the peer, and while it is open the data passed up comes only from authenticated messages.','all schedules','All adversarial interleavings incl. re-entrant callbacks.',[C+'Responder.cpp:Responder::on_auth_session',C+'InitiatorHandshakeStates.cpp'])
p('C26','Open and close notifications alternate','A layer above sees open and close strictly alternating, starting with open, and never sees a transmit-ready or receive-ready notification while closed.','all event sequences','All schedules.',[I+'stack/IUpperLayer.h',C+'CryptoLayer.cpp'])
p('C27','The initiator never gets stuck','Whenever the lower layer is open and the initiator has no established session, either the initiator has a timer pending or it has reported a permanently bad configuration; there is never more than one response/retry timer pending, and a timer that fires is for the current state.','all event sequences and timings','All schedules of timers and messages.',[C+'Initiator.cpp',C+'InitiatorHandshakeStates.cpp'])
p('C28','Closing the lower layer wipes the session','After the lower layer closes, both sessions are unusable and nothing is transmitted or delivered until a new handshake completes; pending transmit data from the old connection is dropped.','all states','All states in which the close can occur.',[C+'CryptoLayer.cpp:CryptoLayer::on_lower_close_impl',C+'Session.cpp:Session::reset'])
p('C29','Certificate chain soundness','A certificate chain is accepted only if every certificate is signed by the preceding one, the first by a trusted anchor, validity intervals nest, signing levels strictly decrease, every issuing certificate holds a signing key, and the end-entity certificate has level zero and a Diffie-Hellman key; the key returned is the one in the end-entity certificate.','all byte sequences offered as certificate data, all trust anchors','All chains and anchors.',[C+'Chain.cpp',C+'IndustrialCertificateHandler.cpp'])
p('C30','Expired certificates are rejected','A certificate whose validity interval does not contain the current time is not accepted during a handshake.','all certificates and times','All times.',[C+'Chain.cpp',C+'IndustrialCertificateHandler.cpp'])
p('C31','QKD frame stream parsing','QIX frames round trip through writer and reader, the frames delivered do not depend on how the serial stream is split, and every delivered key occurs in the stream inside a frame with a correct CRC.','all byte streams and partitions','Unbounded streams.',[Q+'QIXFrameParser.cpp',Q+'QIXFrameWriter.cpp'])
p('C32','Quantum keys are used at most once and in bounded memory','The key store never holds more than the configured number of keys, never hands out the same stored key twice, hands out the highest identifier when asked for any key, and after an identifier goes backwards it only holds keys received since.','all sequences of push/consume/find operations','All histories.',[Q+'QIXKeyStore.cpp'])
p('C33','Transmit requests are never lost or mixed up','Every buffer accepted for transmission is transmitted completely and exactly once within the current session, or the upper layer is told that the session closed; data from before a session failure is not transmitted in a later session.','all schedules of errors and rehandshakes','All failure points.',[C+'TxState.h',C+'CryptoLayer.cpp:CryptoLayer::check_transmit'])
p('C34','Receive back-pressure','A received payload stays available and unchanged until the upper layer has read it and finished processing, later messages do not overwrite it, and each payload is handed up at most once.','all schedules of upper-layer reads','All schedules.',[I+'stack/ILowerLayer.h',C+'CryptoLayer.cpp:CryptoLayer::start_rx_from_upper_impl'])
p('C35','Responder handshake decision table','For every handshake request the responder replies with exactly the documented error for the first failing check and creates no pending session, or replies with its handshake data and a pending session using exactly the requested constraints and algorithms.','all requests','All requests.',[C+'Responder.cpp:Responder::on_message',C+'SharedSecretResponderHandshake.cpp',C+'QKDResponderHandshake.cpp',C+'PublicKeyResponderHandshake.cpp'])
p('C36','Error paths of message buffers are memory safe','Decrypting a received message never reads beyond the message nor writes beyond the destination buffer, for any received lengths; key-agreement and signature primitives are only called with keys and tags of the right length. No sequence of received bytes, calls, timers and answers leads an endpoint or a complete stack into undefined behaviour.','all received messages; all byte streams, schedules and re-entrant calls','Adversarial lengths in any state.',['cpp/libs/sodium/src/Backend.cpp',C+'CryptoLayer.cpp',C+'Responder.cpp',C+'InitiatorHandshakeStates.cpp',C+'MacAdapters.h',C+'SessionMode.cpp'])
p('C37','HKDF conformance','The key derivation computes HKDF-SHA256 extract and expand of the concatenated input key material with the handshake hash as salt and yields two 32-byte keys, each being a prefix-free block of the RFC 5869 output.','all salts and input key material lists','Unbounded inputs.',['cpp/libs/sodium/src/HKDF.h',C+'Algorithms.cpp'])
p('C38','Secret buffers and truncated MAC comparison','Comparison of authentication tags returns true exactly for byte-wise equal sequences of equal length.','all byte sequences','Unbounded.',[C+'Crypto.cpp','cpp/libs/sodium/src/Backend.cpp'])
p('C39','Certificate tool validity times','A certificate created for a given number of days is valid from its start time for exactly that many days.','all day counts accepted by the tool','Overflow appears only beyond a threshold.',['cpp/exe/icftool/UserInput.cpp:UserInput::days_to_times','cpp/exe/icftool/Program.cpp'])
p('C40','Proxy session limit','A listening proxy never has more than the configured number of sessions; a new connection is added, replacing the oldest session when there is no room; every session is removed and destroyed at most once, closes both its connections when it fails, does not affect the others, and is not used after it was destroyed.','all accept/close/error schedules','All schedules.',['cpp/exe/proxy/src/tcp/TcpProxySession.cpp','cpp/exe/proxy/src/tcp/AsioTcpSocketWrapper.h','cpp/exe/proxy/src/Session.h','cpp/exe/proxy/src/AsioUpperLayer.h','cpp/exe/proxy/src/AsioLowerLayer.h'])
p('C41','One transmission at a time','An endpoint gives a frame to the lower layer only while that layer is ready to transmit, one frame at a time, and the next one not before the lower layer reported the end of the transmission.','all schedules of arrivals, timers, application calls (also from inside notifications) and transmissions','Handshake messages, error replies and data are started by different events and compete for the lower layer.',[C+'CryptoLayer.cpp:CryptoLayer::check_transmit',C+'CryptoLayer.cpp:CryptoLayer::try_read_one_from_lower',C+'InitiatorHandshakeStates.cpp',I+'stack/ILowerLayer.h'])
p('C42','Quantum keys go to one subscriber and both ends agree','A key received by the proxy is handed to the subscriber its identifier maps to and to no other, at most once per reception, and two proxies that received the same frame under an identifier hand out the same key for it.','all sequences of binding, received frames and taken keys, all numbers of subscribers','All histories of two independent ends.',['cpp/exe/proxy/src/qkd/QIXQKDSource.cpp','cpp/libs/qix/src/QIXKeyStore.cpp'])
p('C43','Certificates made by the tool are usable','A certificate made by the certificate tool carries exactly the key of the public key file, the given times and level, and the signature of the private key file; a station configured with it and an authority certificate of the signing key starts exactly when the latter covers the former, and the peer then uses the certified key; a chain extended by the tool is accepted wherever the original chain leads to its last certificate, and chains can be extended up to the length stations accept; certificates reported as made can be used in some chain; a command that reports an error changes no file, and no command changes files other than its outputs.','all file contents, keys, times and levels; all sequences of commands and failing writes','All histories of commands and failures; all key files.',['cpp/exe/icftool/Actions.cpp','cpp/exe/icftool/Program.cpp','cpp/libs/ssp21/src/util/SecureFile.cpp','cpp/libs/ssp21/include/ssp21/util/SerializationUtils.h','cpp/libs/ssp21/src/crypto/Chain.cpp'])
p('C44','End-to-end delivery between two endpoints','With two endpoints connected by an arbitrary network, and assuming that messages cannot be forged under the session keys and that handshakes derive different keys: everything the receiving application reads is a piece of a buffer the sending application gave to its endpoint; within a session the data read is, unchanged, in order and without repetition, a part of the data the sender sealed under the matching key, without gaps in strict mode; the sender seals prefixes of the buffers in the order given, and never two messages under the same key and nonce.','all runs of both endpoints (all inputs, schedules, re-entrant calls and handshakes), all network behaviours','Two unbounded histories and an adversarial network between them.',[C+'CryptoLayer.cpp',C+'Session.cpp',C+'Initiator.cpp',C+'InitiatorHandshakeStates.cpp',C+'Responder.cpp',C+'TxState.h'])
p('C45','UDP proxy sessions','At any time the two ports of a UDP proxy are bound by the session started last and by nothing else. When an operation fails on a socket of an established session, or its protocol stack gives up, both its sockets are closed and a new session is started on the same ports; nothing else starts a session; what still happens on the sockets of a replaced session does not touch the current one, and the replaced session is destroyed once its operations have ended. The proxy process survives all errors of operations and goes on working.','all schedules of completed and failed operations, handshakes and posted handlers','Errors can strike any operation in any order, and the error handler re-enters itself through the protocol stack.',['cpp/exe/proxy/src/udp/UdpProxySession.cpp','cpp/exe/proxy/src/udp/AsioUdpSocketWrapper.h','cpp/exe/proxy/src/Session.h','cpp/exe/proxy/src/AsioUpperLayer.h','cpp/exe/proxy/src/AsioLowerLayer.h'])
p('C46','The complete stack from the wire to the application','A complete stack (link layer and crypto layer behind one object, as handed to the proxy) processes the bytes of its transport in any pieces: the messages it acts on are exactly payloads of frames for this station found one after the other in the bytes received; on a line between two stacks the second one acts on the messages of the first, in order, from the first on, and once notified it takes everything that arrived completely; every frame it sends is one well-formed frame with its configured addresses; one transmission is in progress at a time; replay protection, order of notifications, origin and order of the data delivered to the application hold as for the crypto layer; messages are taken only while the connection is open, each connection starts afresh, and frames for other stations on the line do no harm.','all byte streams and their partitions, all schedules of arrivals, transport events, timers and application calls, all configurations','Three layers with their own flags and buffers interact; the interplay depends on the position of every boundary and on every schedule.',['cpp/libs/ssp21/src/stack/LinkCryptoStack.h','cpp/libs/ssp21/src/link/LinkLayer.cpp','cpp/libs/ssp21/src/crypto/CryptoLayer.cpp',I+'stack/ILowerLayer.h',I+'stack/IUpperLayer.h'])
p('C47','Proxy configuration','A configuration file is accepted exactly when everything it has to say is present and well formed (known names, numbers in their ranges, key files that hold a key of the right kind and length, every quantum key source known, every subscriber used once), and the proxy then has exactly the sessions, key sources, ports, addresses, roles, credentials and limits the file states, with the documented defaults for what it leaves out. Everything else is refused with an error, never with undefined behaviour. The proxy starts exactly when the file is accepted and its ports and credentials are usable; two proxies with matching files complete a handshake and agree on the algorithm and limits of the file; key files made by the certificate tool are accepted; settings in an accepted file are obeyed.','all configuration files (all trees of mappings, lists and texts), all contents of the key files, all machines','The space of files and settings is unbounded; a swapped or dropped setting shows only in a particular combination.',['cpp/exe/proxy/src/StackConfigReader.cpp','cpp/exe/proxy/src/ConfigReader.cpp','cpp/exe/proxy/src/YAMLHelpers.cpp','cpp/exe/proxy/src/YAMLHelpers.h','cpp/exe/proxy/src/main.cpp','cpp/exe/proxy/src/IPEndpoint.cpp','cpp/exe/proxy/src/tcp/TcpConfig.cpp','cpp/exe/proxy/src/udp/UdpConfig.cpp','cpp/exe/proxy/src/qkd/QKDSourceRegistry.cpp','cpp/exe/proxy/src/qkd/QIXQKDSource.cpp','cpp/exe/proxy/src/StackFactory.h','cpp/exe/proxy/src/ProxySessionFactory.h'])
p('C48','Delivery on a reliable line','Two endpoints configured for each other (any handshake mode, any compatible settings) and connected by a line that neither loses nor changes nor reorders messages and delays them by less than half the time to live: in every state they can reach, what either application has read is the beginning of what the other application gave to its endpoint, byte for byte; whenever nothing is left to do, both applications have been told that the layer is open and each has read exactly what the other one gave; and that state is always reached: no step gets stuck, and whatever the order of the remaining steps, after finitely many of them everything given so far is delivered, unless they take longer than the time to live allows.','all interleavings of the steps of the two sides, all application calls at any time and inside notifications, all data, delays, clock offsets and compatible configurations, within one session','Two concurrent unbounded histories, coupled by the handshake, nonces, clocks and back-pressure.',[C+'CryptoLayer.cpp',C+'Session.cpp',C+'Initiator.cpp',C+'InitiatorHandshakeStates.cpp',C+'Responder.cpp',C+'TxState.h',I+'stack/ILowerLayer.h',I+'stack/IUpperLayer.h'])
p('C49','Two TCP proxies back to back are a transparent pipe','Two TCP proxies, one with an initiator and one with a responder stack configured for each other, their protected sides connected by a reliable line: whatever the two clients send and when, what comes out of either proxy is always a beginning of what the client of the other proxy has sent, byte for byte; data being written to a client does not change meanwhile, a receive buffer is not reused while its data is still being sent, and no data is refused by the stack; and everything the clients have sent comes out in the end, whatever the order in which the proxies and the completions of their socket operations run.','all compatible configurations, all client data and sizes of the reads, all interleavings of the two proxies and of the completions of socket operations, all delays below the limit','The proxy moves buffers between two sockets without copying; whether one is overwritten or a wake-up is lost depends on the interleaving of completions with the protocol.',['cpp/exe/proxy/src/AsioUpperLayer.h','cpp/exe/proxy/src/tcp/AsioTcpSocketWrapper.h','cpp/exe/proxy/src/Session.cpp',C+'CryptoLayer.cpp'])
p('C50','After any history, a new connection works like the first one','Whatever happened to two endpoints before - any number of connections, handshakes that succeeded, failed or were abandoned, messages from anybody, transmissions and unread data at the time of the close, expired timers - if their connections are closed and they are then connected by a reliable line, the new connection behaves like the first one (C48): a new session is established, each application reads exactly what the other one gives to its endpoint over the new connection, nothing of the past reappears, nothing is lost and no step gets stuck.','all compatible configurations, all past histories of both endpoints in an environment that keeps the contracts of the layers, all interleavings of the steps over the new connection','The past is unbounded: any forgotten flag, timer, buffer, nonce or key of any earlier connection could spoil a later one.',[C+'CryptoLayer.cpp',C+'Initiator.cpp',C+'Responder.cpp',C+'Sessions.cpp',C+'TxState.h','cpp/libs/ssp21/src/stack/LinkCryptoStack.h',I+'stack/ILowerLayer.h'])
p('C51','The key emulator and what its readers get','The QIX emulator, in each of its writing modes, sends every intended key exactly once, in order, to all its ports: the bytes on every port are the frames of the keys (all random keys drawn, all lines of the input up to the first that is not 256 characters 0 and 1, one key per period of the clock), a reader at the other end prints exactly these identifiers and keys however the bytes are split, and if a device fails the program ends with an error and the ports differ by at most one frame. Identifiers increase. Every key can be spelled by exactly one line. A time-based frame is sent when the millisecond that is its identifier has come, and proxies fed by different time-based emulators agree on the key of every identifier. Unusable arguments are refused and nothing is written. Keys are sent at the configured rate, no key is sent twice, and every subscriber gets keys.','all modes, arguments, keys, input lines, clock readings, device failures and splits of the byte stream','Unbounded streams of keys, failures at any byte, all clocks and all combinations of period and number of subscribers.',['cpp/exe/qix-emulator/main.cpp','cpp/libs/qix/src/QIXFrameWriter.cpp','cpp/libs/qix/src/QIXFrameParser.cpp','cpp/exe/proxy/src/qkd/QIXQKDSource.cpp'])
p('C52','Renewing the session does not disturb the applications','When the session timer of the initiator expires, a new session is agreed on over the existing connection while the old one stays in use; over a reliable line, however often this happens: what either application has read since the connection exists is the beginning of what the other application gave to its endpoint, byte for byte; neither application is told that the layer closed; the renewal completes whatever the order of the steps, unless they take longer than the time to live allows; afterwards both sides use the new session, everything given is delivered and the initiator is ready for the next renewal.','all compatible configurations, any number of renewals, all interleavings of the steps of the two sides, all application calls and data, delays and clock offsets','Two sessions exist at once, the two sides change to the new one at different times, and the history is unbounded.',[C+'Initiator.cpp:Initiator::on_session_timeout',C+'InitiatorHandshakeStates.cpp',C+'Responder.cpp:Responder::on_auth_session',C+'Sessions.cpp',C+'CryptoLayer.cpp:CryptoLayer::check_transmit'])
p('C53','An open connection recovers from whatever was lost','Whatever happened over an open connection (messages lost, changed, forged, repeated or too late, handshakes that failed or are half done, one side with a session and the other without): once nothing is under way, a timer of the initiator is running (unless its configuration was found to be bad); when its timers expire and the line works from then on, a new session is agreed on over the same connection, whatever the order of the steps (unless they take longer than the time to live allows), both applications know that the layer is open, and from then on everything either application gives to its endpoint is delivered to the other and the session can be renewed again. Neither side has to close the layer, and neither has to be restarted. If neither side has a session, the applications may offer data and read at any time meanwhile.','all compatible configurations, all histories of the two endpoints (any messages, times, timers, randomness and calls), all interleavings afterwards, all application calls and data, delays and clock offsets','The two sides can be left in any combination of states by an unbounded past, and all orders of the steps afterwards have to succeed.',[C+'Initiator.cpp:Initiator::on_session_timeout',C+'Initiator.cpp:Initiator::on_response_timeout',C+'InitiatorHandshakeStates.cpp',C+'Responder.cpp:Responder::on_message',C+'CryptoLayer.cpp'])
p('C54','What the certificate tool shows is what is in the file','When the certificate tool is asked to show a file, it shows it completely exactly when the file can be read and holds a key or a chain whose certificates are well-formed. The text then gives the type, and the length and every byte of the key, or for every certificate its signature, its body byte by byte, and the times, signing level, key type, key and extensions the body means. The text can be read in only one way: two files for which the same text is shown are identical byte for byte, so nothing in a file escapes the reader. The text shown at the end of creating a certificate is that of the certificate in the file, with the requested times and level and the key of the given file. What is given to the log about a protocol message determines the whole message.','all file contents of any length, all keys, all chains of certificates with all bodies and extensions, all file names, all messages','That no two contents look the same is a statement about all pairs of contents; escaping bugs (missing padding, boundaries of lines, fields not printed) show only on particular bytes.',['cpp/exe/icftool/ConsolePrinter.h:ConsolePrinter','cpp/exe/icftool/Actions.cpp:Actions::print_contents, Actions::print_certificate_chain','cpp/libs/ssp21/src/crypto/gen (print functions of the messages)',I+'crypto/SeqStructField.h:SeqStructField::print',I+'crypto/IMessagePrinter.h'])
p('C55','The certificate tool does what its command line asks for','Of the options of a command line of the certificate tool the first one in a fixed order counts. The action it asks for is carried out with the files in the order they are given, the days and the level that are given or that are typed (the first number typed is the days; the first further number up to 6 is the level, larger ones are refused), and the program ends, reporting an error exactly when the action fails. Showing shows the files in the order they are given, up to the first that cannot be shown. With help, no option, a wrong number of files or a value that cannot be converted nothing is done. Whatever is given or typed, only the files named as outputs of that action can change. The program always ends, its exit status tells whether the action was carried out, and no certificate is made with a level or days that were not entered.','all command lines (options, values, numbers of files), all texts that are typed or cut off, all contents of the files, all disks','Interactive input has unboundedly many forms, and the absence of other effects is a statement about all of them.',['cpp/exe/icftool/Program.cpp:Program::run','cpp/exe/icftool/UserInput.cpp','cpp/exe/icftool/main.cpp','cpp/exe/icftool/Actions.cpp'])
p('C56','From the configuration files to the clients','Two proxies that are started with configuration files that fit together (credentials of the same kind that belong together; addresses and ports that face each other; buffers of at least 1024 bytes; a time to live of at least twice the delay of the line) carry what their clients send: what comes out at one proxy is always the beginning of what the client of the other one sent, byte for byte, and all of it comes out in the end, unless the line is slower than the files allow. In particular for the configuration files that come with the proxy, with keys made by the certificate tool. If the link addresses in the two files do not face each other, nothing is ever received.','all configuration files, disks and machines; all keys and secrets; all data and times of the clients, all interleavings of the two proxies, all delays up to the configured limit','It joins the reader of the configuration, the making of the stacks, the handshake, the session and the proxy, for every value of every setting and every schedule of two processes.',['config/proxy','cpp/exe/proxy/src/ConfigReader.cpp','cpp/exe/proxy/src/StackConfigReader.cpp','cpp/exe/proxy/src/tcp/TcpProxySession.cpp','cpp/exe/proxy/src/udp/UdpProxySession.cpp','cpp/libs/ssp21/src/stack/Factory.cpp'])
p('C57','Statistics','The statistics a layer shows (get_statistics) are exact: every session message given to a session is counted in exactly one of the counters of received messages, as a success exactly when it is accepted, otherwise under the reason for which it is rejected (no session, not authentic, too old, bad nonce); the number of initialized sessions is the number of successful handshakes; nothing else changes a counter, no counter decreases before it has reached 2^64, resetting and exchanging sessions keep them, and the counters have no influence on what the layer does.','all sequences of operations on the two sessions of a layer and all runs of an initiator or responder; all messages, keys, times and handshakes','The counters must agree with the answers after every history, in both sessions and both phases; tests look at a counter after one message.',[C+'Session.cpp',C+'Sessions.cpp',I+'crypto/Statistics.h',C+'CryptoLayer.h'])
with open('/verif/properties.jsonl','w') as f:
    for x in P: f.write(json.dumps(x)+'\n')
print(len(P))
