{
 "C01": "writer and byte-level parser automaton with its buffer; symbolic run of one frame under every chunking.",
 "C02": "the parser is shown equal to a byte-at-a-time fold; chunk boundaries vanish.",
 "C03": "every delivered frame is located in the stream with both CRCs; invariant relating buffer and consumed bytes.",
 "C04": "explicit UB/NoFuel outcomes; invariant bounding the buffered count, termination measure of the parse loop.",
 "C05": "as C01 from arbitrary states; witness for the refutation.",
 "C06": "table = 8-step polynomial division (complete 256-entry check lifted by linearity), then polynomial algebra over GF(2); order of x modulo the generator by computation in the kernel.",
 "C07": "simulation of LinkLayer by the parser over all histories.",
 "C08": "progress invariant of the queue/remainder/flag; refutation by induction over all continuations.",
 "C09": "drained-state invariant; two witness histories.",
 "C10": "reader/writer combinators, one lemma per field kind composed for each message.",
 "C11": "read succeeds iff the input is the wire encoding of the independent specification.",
 "C12": "case analysis on the byte count of the length.",
 "C13": "exactness of the readers, size of the writers.",
 "C14": "invariant over all interleavings of the session and of the endpoint machine.",
 "C15": "session invariant on the transmit nonce; at the endpoint, a ghost history of sealed messages per key pair.",
 "C16": "exact characterisation of acceptance in terms of the clock.",
 "C17": "case analysis of validation; counterexample.",
 "C18": "refinement of the accepted list to a subsequence of the sent list, under unforgeability stated on the actual frames.",
 "C19": "induction over the transmit loop.",
 "C20": "size arithmetic; tight threshold.",
 "C21": "injectivity of the formatted metadata.",
 "C22": "symbolic execution of both sides of each handshake.",
 "C23": "transcript equality from equality of the hashes under collision resistance on the two inputs.",
 "C24": "per-message non-interference of the endpoint machine, lifted to runs.",
 "C25": "automaton over the events of the endpoint, invariant over all label lists.",
 "C26": "automaton over the events.",
 "C27": "invariant relating handshake state and armed timer; witness.",
 "C28": "invariant of the state after a close; witness.",
 "C29": "induction over the chain.",
 "C30": "independence of the decision from the time; witness.",
 "C31": "simulation of the parser by stream contents; witnesses.",
 "C32": "invariant over all histories of the key store.",
 "C33": "invariant relating the chunks handed down to the accepted buffer; witnesses.",
 "C34": "invariant of unread payload and of the processing flags; witnesses.",
 "C35": "exact decision table against the specification, single-valued.",
 "C36": "Undefined behaviour is an outcome of the model (UB): the primitives of the backend, called with too short keys or tags, and slices of messages no longer kept. Lengths are arithmetic on the read messages; for running endpoints and stacks, induction over the run with an invariant that held slices are current, that every message being processed was taken before, and (HMAC) that no session uses AES-GCM. The stack is reduced to its crypto layer by the simulation of C46. The exceptions are executed symbolically for arbitrary keys and primitives.",
 "C37": "equality with a transcription of RFC 5869.",
 "C38": "delegated to libsodium; the length check is the code.",
 "C39": "32-bit int arithmetic with overflow as UB; exact domain.",
 "C40": "invariant over all schedules of the listener, sessions, posted handlers; exact characterisation of UB; witnesses.",
 "C41": "invariant linking the transmit flag, the link below and the calls pending on the stack.",
 "C42": "routing and store invariants over two proxies; witnesses.",
 "C43": "symbolic execution of each command, invariant over all command sequences, disk faults as oracle; witnesses.",
 "C44": "`Endpoint.v` (two independent runs), `PairSpec.v` (log of sealed messages as an automaton over the events, assumptions); the log is a simulation invariant, nonces under one key count from zero, then the receiver's accepted (nonce, payload) pairs index the log.",
 "C45": "`UdpProxy.v` (sockets, stack and layer flags, references, nested error handler as a depth-bounded recursion), `UdpProxySpec.v` (ports held, sessions started and destroyed, from the events); invariant over all schedules; exact characterisation of failures; witnesses.",
 "C46": "`Stack.v` composes `LinkLayer.v` and `Endpoint.v`; a simulation shows that each run of the stack is a run of both, which lifts the theorems of both; `LinkLayerBus.v` for lines with several stations; witnesses. `StackDrain.v`: invariant that an idle open stack either still has a read in progress or its link layer has nothing complete left.",
 "C47": "`Config.v` models the reader over trees of mappings, lists and texts, with the conversions of yaml-cpp (text to number) and the machine (ports) as parameters; `ConfigSpec.v` states relationally what a file says; `ConfigFacts.v` proves reader and relation equivalent; `ConfigUse.v` connects accepted sessions to the endpoint, stack, handshake and tool theorems; witnesses modelled on the shipped example files.",
 "C48": "`Line.v` puts two `Endpoint.v` executions over a line with queues, transmission status, clocks and re-entrant application calls; `LineSpec.v` states compatibility of the configurations, what was given and got, and rest. Inductive invariant over the joint execution (`LineFacts.v`): the phase of each side, the messages sent as sealed chunks with consecutive nonces, the times of the handshake, and for each side where the unread and unsent data are; the handshake steps are computed from the session agreement of C22. For delivery, every step is shown possible for every answer of the environment, and a weight of what is left to do (`LineCost.v`) falls with every step (`LineLive.v`).",
 "C49": "`Tunnel.v` adds to both sides of `Line.v` the upper layer of the proxy (`AsioUpperLayer.h` over `AsioTcpSocketWrapper.h`) as the application of the stack, with its socket: what the client sent, whether a read or a write is in progress and on which buffer. `TunnelSpec.v` states what came out, rest and the use of the buffers. Every execution is an execution of `Line.v` (`tunnel_line`), so the invariant of C48 holds; an invariant of the upper layer (`stn`: a read is in progress exactly when the stack is open and idle, a write exactly while the stack's payload is held for it, nothing is between the socket and the stack) links the sockets to the stacks. For progress, the weight of C48 plus that of the unread data falls with every step (`TunnelLive.v`).",
 "C50": "`RecoverSpec.v`: `disconnected`, the states of an endpoint after any run of `Endpoint.v` in a fair environment, when the connection is closed. `RecoverFacts.v`: the invariants of C24 (`winv`), of C27 (`hinv`) and two new ones (the flag of the layer, the required-flag of the responder) show that such a state is like a new one in everything the invariant of C48 needs (`openable`); the handshake lemmas of C48 hold for arbitrary leftovers in the handshake and session objects. Then the proofs of C48, from `start_line` instead of `new_line`.",
 "C51": "`Emulator.v` models the program with the readings of the clocks, the drawn keys, the input lines and the behaviour of the devices as inputs; its result is a log of writes, prints and pauses. `EmulatorFacts.v` reduces all modes to one function that writes a list of frames, by induction on the inputs; the bits of a line by `N.testbit`; C31 (round trip) for the reader, C42 for the key source; Bezout for the subscribers.",
 "C52": "`Renew.v` lets the session timer expire on top of the two endpoints of `Line.v`; `RenewSpec.v` describes all connections with any number of renewals. Simulation (`RenewFacts.v`): a connection that is being renewed is related to a ghost connection whose sessions and notifications of the past are hidden and which has just been opened; its steps are those of C48, so the invariant and the liveness of C48 apply to the ghost and are carried back; at rest, the two coincide and the next renewal can begin.",
 "C53": "`Resume.v` lets the timers of the initiator expire in any state (response timer, retry timer, session timer); `RenewSpec.v` has the resumed connection as a second beginning of an era. The simulation of C52 does not need the two old sessions to fit together, as the ghost connection hides them (`era_again`, `resumed_inv`); that a timer is running after any history is the invariant of C27 (`history_due`).",
 "C54": "`Print.v` has the print functions of all messages, the console printer and the text of `icftool --show`; `PrintSpec.v` is a grammar of the texts, independent of the printing. `PrintFacts.v` shows that the printed text is in the grammar (`display_shows`, with `display_only` for the converse by `print_contents` of `Icf.v`), and that every production of the grammar is deterministic: a text has at most one content and, followed by anything, one end (the det lemmas; where a hex dump ends follows from the length shown before it).",
 "C55": "`Program.v` has `Program::run`, the interactive input (formatted extraction of numbers from a stream with its failbit, character by character) and what is written to std::cout, on top of `Icf.v` and `Print.v`. `ProgramSpec.v` describes typed text as blanks, digits and rest, and a command line by the first option in a list; it does not use the functions of the model. `ProgramFacts.v`: extraction of a typed number by induction on the text, the loop for the level by induction on the numbers typed; then case analysis over the options.",
 "C56": "`DeploySpec.v` says what it means that a proxy runs with a file (over `launch` and `on_connected` of `Config.v`), that two files are meant for each other and that they face each other; no settings are fixed. `DeployFacts.v` derives from that, with C47 (`says`, the created stacks), every condition of `compatible` (`LineSpec.v`), so that C48 and C49 apply. `Shipped.v` is generated from the YAML files of /repo/config/proxy; that they are accepted is proved by symbolic execution of the reader, for any disk with keys of the right kind at the named places and any keys.",
 "C57": "`Statistics.v` models the counters, where the functions of the two sessions bump them (in the order of `Session.cpp`, modulo 2^64), and what an endpoint does to them in each step. `StatisticsSpec.v` counts answers and events of the trace without looking at the counters. Induction over the calls (each call bumps exactly what its answer stands for) and over the run of the endpoint (each handler's bumps agree with the events it emits); C57_meaning uses the characterization of validation of C11 to C13."
}