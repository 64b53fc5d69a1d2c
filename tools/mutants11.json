[
 {
  "id": "E1",
  "file": "Config",
  "definition": "get_addresses",
  "old": "a_destination := Z.to_N remote; a_source := Z.to_N local",
  "new": "a_destination := Z.to_N local; a_source := Z.to_N remote",
  "edit": "local and remote address swapped",
  "claim": "the stack uses the addresses of the file",
  "breaks": "C47"
 },
 {
  "id": "E2",
  "file": "Config",
  "definition": "max_u16",
  "old": "max_u16 : Z := 65535",
  "new": "max_u16 : Z := 65536",
  "edit": "port and address limit off by one",
  "claim": "values that do not fit are refused",
  "breaks": "C47"
 },
 {
  "id": "E3",
  "file": "Config",
  "definition": "get_time_unit",
  "old": "\"minutes\" then ret 60000000000%Z",
  "new": "\"minutes\" then ret 6000000000%Z",
  "edit": "minutes wrong by a factor",
  "claim": "durations mean what the file says",
  "breaks": "C47"
 },
 {
  "id": "E4",
  "file": "Config",
  "definition": "get_crypto_key",
  "old": "if negb (entry_eqb (cf_type file) expected) then throw\n      else if",
  "new": "if",
  "edit": "type of the key file not checked",
  "claim": "a key file of the wrong kind is refused",
  "breaks": "C47"
 },
 {
  "id": "E5",
  "file": "Config",
  "definition": "get_crypto_key",
  "old": "      else if negb (length (cf_payload file) =? 32) then throw\n",
  "new": "",
  "edit": "length of the key not checked",
  "claim": "a key of the wrong length is refused",
  "breaks": "C47"
 },
 {
  "id": "E6",
  "file": "Config",
  "definition": "configure_qkd_source",
  "old": "  | Some _ => throw\n  | None =>\n      get type",
  "new": "  | Some _ | None =>\n      get type",
  "edit": "duplicate sources accepted",
  "claim": "a source is configured once",
  "breaks": "C47"
 },
 {
  "id": "E7",
  "file": "Config",
  "definition": "get_session_factory",
  "old": "if negb (uses_link_layer fac) then throw else\n",
  "new": "",
  "edit": "TCP without link layer accepted",
  "claim": "TCP requires the link layer",
  "breaks": "C47"
 },
 {
  "id": "E8",
  "file": "Config",
  "definition": "get_mode",
  "old": "\"qkd\" then ret hm_qkd",
  "new": "\"qkd\" then ret hm_shared_secret",
  "edit": "wrong mode for qkd",
  "claim": "the mode is the one of the file",
  "breaks": "C47"
 },
 {
  "id": "E9",
  "file": "Config",
  "definition": "get_session_limits",
  "old": "\"max_nonce_value\" 32768",
  "new": "\"max_nonce_value\" 65535",
  "edit": "other default of the nonce limit",
  "claim": "documented defaults",
  "breaks": "C47"
 },
 {
  "id": "E10",
  "file": "Config",
  "definition": "get_optional_ms",
  "old": "if (ms >? max_u32)%Z then throw else ret ms",
  "new": "if (ms >? max_u32)%Z then ret max_u32 else ret ms",
  "edit": "a time too long is capped",
  "claim": "values that do not fit are refused",
  "breaks": "C47"
 },
 {
  "id": "E11",
  "file": "Config",
  "definition": "get_local_static_keys",
  "old": "ret (public, private)",
  "new": "ret (private, public)",
  "edit": "public and private key swapped",
  "claim": "credentials are the configured ones",
  "breaks": "C47"
 },
 {
  "id": "E12",
  "file": "Config",
  "definition": "make_initiator",
  "old": "CPreshared _ private _, Some h | CCertificates _ private _ _, Some h => Some (IPublicKey",
  "new": "CPreshared private _ _, Some h | CCertificates private _ _ _, Some h => Some (IPublicKey",
  "edit": "the stack gets the public key as its private one",
  "claim": "credentials are the configured ones",
  "breaks": "C47"
 },
 {
  "id": "E13",
  "file": "Config",
  "definition": "create_stack",
  "old": "(ig_max_payload g) (ig_ttl_pad_ms g)",
  "new": "(ig_ttl_pad_ms g) (ig_max_payload g)",
  "edit": "payload size and time to live swapped",
  "claim": "the stack uses the configured limits",
  "breaks": "C47"
 },
 {
  "id": "E14",
  "file": "Config",
  "definition": "launch",
  "old": "  | [] => throw\n  | _ =>\n      if forallb",
  "new": "  | _ =>\n      if forallb",
  "edit": "a file without sessions starts the proxy",
  "claim": "a file without sessions is refused",
  "breaks": "C47"
 },
 {
  "id": "E15",
  "file": "Config",
  "definition": "start",
  "old": "bindable M secure_rx && bindable M raw_rx",
  "new": "bindable M secure_rx",
  "edit": "the unprotected port of a UDP session is not bound",
  "claim": "the proxy runs exactly when its ports can be bound",
  "breaks": "C47"
 },
 {
  "id": "E16",
  "file": "Config",
  "definition": "construct",
  "old": "usable L listen && bindable M listen && usable L connect",
  "new": "usable L listen && bindable M listen",
  "edit": "the address to connect to is not checked",
  "claim": "the proxy runs exactly when the addresses are addresses",
  "breaks": "C47"
 },
 {
  "id": "E17",
  "file": "Config",
  "definition": "bind_store",
  "old": "bind_key_store s (Z.to_N sub) (Z.to_nat cache)",
  "new": "bind_key_store s (Z.to_N cache) (Z.to_nat sub)",
  "edit": "subscriber and cache size swapped",
  "claim": "the key store is the one of the subscriber",
  "breaks": "C47"
 },
 {
  "id": "E18",
  "file": "Config",
  "definition": "bind_store",
  "old": "ret (put_source r id s',",
  "new": "ret (r,",
  "edit": "binding is not recorded",
  "claim": "a subscriber is used once",
  "breaks": "C47"
 },
 {
  "id": "E19",
  "file": "Config",
  "definition": "optional_integer",
  "old": "None => ret default | Some c => extract_integer L low high c",
  "new": "None => ret default | Some c => match extract_integer L low high c with Ok None => ret default | o => o end",
  "edit": "a malformed optional value counts as absent",
  "claim": "malformed values are refused",
  "breaks": "C47"
 },
 {
  "id": "E20",
  "file": "Config",
  "definition": "get_stack_factory",
  "old": "get a := require link_layer \"address\" in get x := get_addresses L a in ret (Some x) else ret None",
  "new": "get a := require link_layer \"address\" in get x := get_addresses L a in ret (Some x) else get a := require link_layer \"address\" in ret None",
  "edit": "addresses required although the link layer is disabled",
  "claim": "a file that says everything needed is accepted",
  "breaks": "C47"
 },
 {
  "id": "E21",
  "file": "Config",
  "definition": "get_responder_credentials",
  "old": "get remote := get_remote_public_key L f n in ret (r, CPreshared public private remote)",
  "new": "get remote := get_remote_public_key L f n in ret (r, CPreshared public private public)",
  "edit": "the responder trusts its own key",
  "claim": "credentials are the configured ones",
  "breaks": "C47"
 },
 {
  "id": "E22",
  "file": "Config",
  "definition": "get_session_factory",
  "old": "get a := get_endpoint L t \"raw_rx\" in get b := get_endpoint L t \"raw_tx\" in",
  "new": "get a := get_endpoint L t \"raw_tx\" in get b := get_endpoint L t \"raw_rx\" in",
  "edit": "UDP ports swapped",
  "claim": "ports are the configured ones",
  "breaks": "C47"
 },
 {
  "id": "E23",
  "file": "Config",
  "definition": "foreach",
  "old": "match n with NSeq l => each action s l | _ => throw end",
  "new": "match n with NSeq l => each action s l | NNull => ret (s, []) | _ => throw end",
  "edit": "a missing list counts as empty",
  "claim": "a file without a list of sessions is refused",
  "breaks": "C47"
 },
 {
  "id": "E24",
  "file": "Config",
  "definition": "get_initiator_config",
  "old": "\"session_time_renegotiation_trigger_ms\" 3540000",
  "new": "\"session_time_renegotiation_trigger\" 3540000",
  "edit": "other name of the trigger setting",
  "claim": "settings are read under their names",
  "breaks": "C47"
 },
 {
  "id": "E25",
  "file": "Config",
  "definition": "get_shared_secret",
  "old": "get_crypto_key L f path ce_shared_secret",
  "new": "get_crypto_key L f path ce_x25519_private_key",
  "edit": "shared secret read from a private key file",
  "claim": "a key file of the wrong kind is refused",
  "breaks": "C47"
 },
 {
  "id": "E26",
  "file": "Config",
  "definition": "make_stack",
  "old": "c_via_stack := true",
  "new": "c_via_stack := false",
  "edit": "stack calls the crypto layer directly",
  "claim": "stacks satisfy what the stack theorems need",
  "breaks": "C47"
 },
 {
  "id": "E27",
  "file": "Config",
  "definition": "extract_integer",
  "old": "(value >? high)%Z then throw",
  "new": "(value >? high)%Z then ret high",
  "edit": "values too large are capped",
  "claim": "values that do not fit are refused",
  "breaks": "C47"
 },
 {
  "id": "E28",
  "file": "Config",
  "definition": "levels_known",
  "old": "contains c \"vewidcfm\" && levels_known s'",
  "new": "contains c \"vewidcfm\" || levels_known s'",
  "edit": "one known letter is enough",
  "claim": "unknown names are refused",
  "breaks": "C47"
 }
]