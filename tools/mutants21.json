[
 {
  "id": "dep-1",
  "file": "Shipped",
  "definition": "Shipped.shared_secret_tcp_responder",
  "old": "(\"port\", NScalar \"20001\")])",
  "new": "(\"port\", NScalar \"20003\")])",
  "edit": "the responder listens on another port than the initiator connects to",
  "claim": "the shipped shared secret files face each other",
  "breaks": "C56",
  "nth": 7
 },
 {
  "id": "dep-3",
  "file": "Config",
  "definition": "Config.create_stack",
  "old": "ic_nonce_trigger := ig_nonce_trigger g",
  "new": "ic_nonce_trigger := l_max_nonce (ig_limits g)",
  "edit": "the maximum nonce is used as renegotiation trigger",
  "claim": "the stack has the renegotiation trigger of the file",
  "breaks": "C47"
 },
 {
  "id": "dep-4",
  "file": "Config",
  "definition": "Config.make_responder",
  "old": "| CPreshared _ private _, Some h",
  "new": "| CPreshared private _ _, Some h",
  "edit": "the public key is used as the private key of the responder",
  "claim": "the responder uses the private key of the file",
  "breaks": "C56",
  "nth": 1
 },
 {
  "id": "dep-5",
  "file": "Config",
  "definition": "Config.launch",
  "old": "if forallb (construct L M) plans then",
  "new": "if true then",
  "edit": "sessions whose constructor throws are started nevertheless",
  "claim": "the proxy starts only if every address is usable",
  "breaks": "C47"
 },
 {
  "id": "dep-6",
  "file": "Config",
  "definition": "Config.start",
  "old": "ret (Some c) else throw",
  "new": "ret (Some c) else UB",
  "edit": "a UDP port in use is undefined behaviour",
  "claim": "starting the proxy on ports in use is an error that is reported",
  "breaks": "C47"
 },
 {
  "id": "dep-7",
  "file": "Config",
  "definition": "Config.to_duration",
  "old": "(v <=? max_i64)",
  "new": "(v <? max_i64)",
  "edit": "the largest duration overflows",
  "claim": "the longest duration of 2^63-1 ns is accepted",
  "breaks": "C47"
 },
 {
  "id": "dep-8",
  "file": "Config",
  "definition": "Config.make_stack",
  "old": "e_ttl_pad_ms := ttl",
  "new": "e_ttl_pad_ms := ttl / 1000",
  "edit": "the time to live is taken as seconds",
  "claim": "the stack has the time to live of the file",
  "breaks": "C56"
 },
 {
  "id": "dep-9",
  "file": "Config",
  "definition": "Config.get_optional_ms",
  "old": "if (ms <? 0)%Z then throw",
  "new": "if (ms <? 0)%Z then UB",
  "edit": "a negative duration is undefined behaviour",
  "claim": "a negative time to live is refused with an exception",
  "breaks": "C47"
 },
 {
  "id": "dep-10",
  "file": "Icf",
  "definition": "Icf.gen_shared_secret",
  "old": "firstn 32",
  "new": "firstn 31",
  "edit": "the shared secret has 31 bytes",
  "claim": "a generated shared secret can be used in the configuration",
  "breaks": "C56"
 },
 {
  "id": "dep-11",
  "file": "Config",
  "definition": "Config.construct",
  "old": "usable L listen && bindable M listen && usable L connect",
  "new": "usable L listen && usable L connect",
  "edit": "the constructor does not bind the port",
  "claim": "the proxy starts only if it can listen on the configured port",
  "breaks": "C47"
 },
 {
  "id": "dep-12",
  "file": "Config",
  "definition": "Config.start_all",
  "old": "get r := start_all P S M l' in ret (c :: r)",
  "new": "get r := start_all P S M l' in ret r",
  "edit": "the stacks of the sessions are dropped",
  "claim": "every UDP session has its stack when the proxy runs",
  "breaks": "C56"
 }
]