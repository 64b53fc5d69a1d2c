# Design of the Rocq model of ssp21-cpp

This file is generated by `tools/design.py` from `tools/design_static.md` (the text), `properties.jsonl`,
`MANIFEST.json` and `seeded/LOG.jsonl`.

## 1. Approach

* **Values.** A byte is an `N` below 256 (`byte_ok`); a read-only sequence (`seq32_t`) is a `list N`; integer
  fields are `N` and every conversion or wrap of a C++ type is written out (`u8 u16 u32 u64`). Times are counts of
  nanoseconds in `Z` (steady clock) or milliseconds in `N` (certificates).
* **Buffers.** A destination (`wseq32_t`) of the message formatters is its remaining capacity, and a writer returns
  the bytes it wrote or an error. The link parser and the QIX parser, whose correctness *is* about an in-place
  buffer, work on an explicit fixed-size array.
* **Undefined behaviour** (reading or writing outside a buffer, a precondition of libsodium, signed overflow,
  division by zero, an invalid iterator, a destroyed object, overlapping `memcpy`) is a distinct outcome (`UB`) of
  the modelled function, and exhausting the fuel of a loop is a third (`NoFuel`). Theorems say which inputs can reach
  them: either none, or exactly these.
* **Cryptography** is a record of functions (`Primitives.prims`, `Icf.signer`). Every theorem quantifies over it.
  `prims_ok`/`signer_ok` (output lengths, decryption inverts encryption, Diffie-Hellman commutes, signatures verify) are
  the only general hypotheses. A security assumption, when needed (C18, C44: unforgeability, C23: collision resistance,
  C30/C43: none), is written in the statement of the theorem and on the very inputs of the computation, so that it is
  not "false by counting".
* **Environment.** The clock, timers, randomness, the transport below, the application above, the key source, the disk
  are inputs of the step functions: a theorem over all lists of labels is a theorem over all environments. Calls an
  application makes from inside its notifications (re-entrancy) are part of the model: `Endpoint.v` is a machine with
  an explicit stack of the calls still to be made.
* **Proof method.** Inductive invariants over all label sequences (Session, Endpoint, LinkLayer, Proxy, Udp, key store),
  simulation (link parser, QIX parser), exact characterisation of accepted inputs (codecs), algebra of polynomials
  over GF(2) (CRC). No bound on sizes, depths or steps anywhere; concrete computations appear only as
  non-vacuity examples and as refutation witnesses.
* **Suffixes.** `_partial`: a proved part of a property whose full statement is not provable (normally because the code
  does not satisfy it; the hypothesis added is visible in the statement). `_refuted`: a proved theorem saying that the
  code does *not* have the property, with the witness run or the whole class of inputs.

## 2. Layout

| theory | models (under /repo/cpp) | specification | proofs | property theorems |
|---|---|---|---|---|
| `Base` | the parts of ser4cpp that are used (sources absent from /repo) | – | `BaseFacts` | – |
| `Codec` | `libs/ssp21/src/crypto/VLength.cpp`, `MessageParser.h`, `MessageFormatter.h`, `{Integer,Enum,SeqByte,SeqStruct}Field.h`, all of `crypto/gen/*.cpp` | `CodecSpec` | `CodecFacts` | `PropCodec` |
| `Crc` | `src/link/CastagnoliCRC32.cpp` (table copied mechanically) | `CrcSpec` | `CrcFacts`, `CrcMain` | `PropCrc` |
| `Link` | `src/link/LinkParser.*`, `LinkFrameWriter.*`, `RawFrameWriter.cpp` | `LinkSpec` | `LinkFacts`, `LinkMain` | `PropLink` |
| `LinkLayer` | `src/link/LinkLayer.*`, `stack/{ILowerLayer,IUpperLayer}.h` as used by it | `LinkLayerSpec` | `LinkLayerFacts` | `PropLinkLayer` |
| `Primitives` | interface of libsodium as used by `libs/sodium/src/Backend.cpp` | – | – | – |
| `Session` | `Session.*`, `Sessions.*`, `SessionMode.*`, `MacAdapters.h`, `NonceFunctions.h`, `Nonce.h`, `Backend.cpp` (AEAD, comparison) | `SessionSpec` | `SessionFacts`, `SessionMain` | `PropSession` |
| `Handshake` | `Algorithms.cpp`, `TripleDH.cpp`, `HKDF.h`, `Crypto.cpp`, `HandshakeHasher.cpp`, `Chain.cpp`, `IndustrialCertificateHandler.*`, `PresharedKeyCertificateHandler.h`, the three initiator and three responder handshakes, `Responder.cpp` (handshake part), `ProtocolVersion.cpp` | `HandshakeSpec` | `HandshakeFacts`, `HandshakeMain`, `HandshakePair` | `PropHandshake` |
| `Endpoint` | `CryptoLayer.*`, `Initiator.*`, `InitiatorHandshakeStates.*`, `Responder.*`, `TxState.h`, `LinkCryptoStack.h`/`AbstractStack` flags, `stack/{ILowerLayer,IUpperLayer}.h` | `EndpointSpec` | `EndpointFacts`, `EndpointMain`, `EndpointNonce`, `EndpointRx`, `EndpointTx`, `EndpointTimer`, `EndpointClose`, `EndpointRuns` | `PropEndpoint`, `PropEndpoint2..4` |
| `Qix` | `libs/qix/src/{QIXFrameParser,AsyncQIXFrameReader,QIXFrameWriter,QIXKeyStore}.cpp`, `exe/proxy/src/qkd/QIXQKDSource.cpp`, `KeyRecord.cpp` | `QixSpec` | `QixFacts`, `QixStore` | `PropQix` |
| `Emulator` | `exe/qix-emulator/main.cpp` (without the argument parser) | `EmulatorSpec` | `EmulatorFacts` | `PropEmulator` |
| `Proxy` | `exe/proxy/src/tcp/*`, `Session.h`, `AsioLowerLayer.h`, `AsioUpperLayer.h` | `ProxySpec` | `ProxyFacts` | `PropProxy` |
| `Icf` | `exe/icftool/Actions.cpp`, `Program.cpp` (dispatch), `UserInput.cpp`, `SecureFile.*`, `SerializationUtils.h` | `IcfSpec` | `IcfFacts` | `PropIcf` |
@EXTRA@

Model files contain definitions only; each definition cites the file and lines it models and states the
simplifications. Specification files are short and use only the data types of the model. `Prop*.v` state each property,
print its assumptions and give at least one concrete, non-trivial instance that meets the hypotheses.

## 3. Trusted base

1. **Coq 8.16.1's kernel** (and `coqchk`, which re-checks every compiled file in `vcheck`).
2. **Axioms.** `Print Assumptions` answers "Closed under the global context" for every theorem listed in MANIFEST.json:
   no axiom, neither of ours nor of the standard library. (`coqchk -o` additionally lists seven
   `Coq.ssr.ssrunder.Under_rel.*` constants, which belong to a loaded standard module and are used by no theorem.)
   No `Admitted`, no functor or module type, no `Declare Module`, no plugin, no kernel check switched off.
3. **The reading of the C++** cited in each definition. Nothing was compiled or run.
4. **ser4cpp** (`Base.v`): its sources are not in /repo. `take/skip/advance` clamp, `copy_from/move_from` refuse a
   destination that is too small, `UIntN::read_from/write_to` are big-endian and refuse short sequences,
   `copy_from` is `memcpy`, `move_from` is `memmove`.
5. **libsodium, asio, exe4cpp, yaml-cpp, the C++ standard library**: behave as documented. libsodium functions are
   parameters; asio completes each started operation at most once, and only from the executor; the executor runs one handler at a time; the
   steady clock is an arbitrary function of the step.
6. **The specifications** (`*Spec.v`) say what the English properties say.

## 4. What is not modelled

* logging and its configuration (what is given to the log about a message is modelled, not its formatting by log4cpp), the parsing of the command line (argagg), the parsing
  of YAML text into a tree (yaml-cpp; what the proxy does with the tree is modelled), the serial driver;
* the contents of the data in the proxies (the stacks inside are modelled separately, in `Endpoint`/`LinkLayer`);
* the data race of the QIX subscribers map with the executor thread (single-threaded model);
* overflow of 64-bit nanosecond times; allocation failure; exceptions other than those cited;
* secure zeroing of buffers beyond the fact that they are replaced; timing side channels; the compiler.

