[
 {
  "id": "hs-1",
  "file": "Handshake",
  "definition": "responder_finish",
  "old": "{| k_rx := k1; k_tx := k2 |}",
  "new": "{| k_rx := k2; k_tx := k1 |}",
  "edit": "responder keys swapped",
  "claim": "C22,C35,C37",
  "breaks": "both sides transmit with the same key"
 },
 {
  "id": "hs-2",
  "file": "Handshake",
  "definition": "hkdf",
  "old": "(concat [output1; [2%N]])",
  "new": "(concat [[2%N]])",
  "edit": "T(1) left out of T(2)",
  "claim": "C37",
  "breaks": "not RFC 5869"
 },
 {
  "id": "hs-3",
  "file": "Handshake",
  "definition": "hkdf",
  "old": "(concat [[1%N]])",
  "new": "(concat [[0%N]])",
  "edit": "HKDF counter starts at 0",
  "claim": "C37",
  "breaks": "not RFC 5869"
 },
 {
  "id": "hs-4",
  "file": "Handshake",
  "definition": "hasher_compute",
  "old": "(concat [value; second])",
  "new": "(concat [second])",
  "edit": "request left out of the handshake hash",
  "claim": "C23,C37,C22",
  "breaks": "request is not bound"
 },
 {
  "id": "hs-5",
  "file": "Handshake",
  "definition": "initialize_session",
  "old": "[dh1; dh3; dh2]",
  "new": "[dh1; dh2; dh3]",
  "edit": "initiator does not swap dh2 and dh3",
  "claim": "C22",
  "breaks": "keys differ in public key mode"
 },
 {
  "id": "hs-6",
  "file": "Handshake",
  "definition": "verify_pair",
  "old": "(cb_signing_level parent <=? cb_signing_level child)%N",
  "new": "(cb_signing_level parent <? cb_signing_level child)%N",
  "edit": "equal signing level allowed",
  "claim": "C29",
  "breaks": "levels need not decrease"
 },
 {
  "id": "hs-7",
  "file": "Handshake",
  "definition": "verify_pair",
  "old": "if (cb_valid_before parent <? cb_valid_before child)%N then Ok (inr he_bad_certificate_chain)\n                 else ",
  "new": "",
  "edit": "valid_before nesting dropped",
  "claim": "C29",
  "breaks": "child outlives parent"
 },
 {
  "id": "hs-8",
  "file": "Handshake",
  "definition": "verify_pair",
  "old": "(cb_valid_after child <? cb_valid_after parent)%N",
  "new": "(cb_valid_after parent <? cb_valid_after child)%N",
  "edit": "valid_after comparison reversed",
  "claim": "C29",
  "breaks": "validity not nested"
 },
 {
  "id": "hs-9",
  "file": "Handshake",
  "definition": "verify_pair",
  "old": "if negb (signature_length =? length (env_signature child_envelope)) then Ok (inr he_bad_certificate_chain)\n      else",
  "new": "if false then Ok (inr he_bad_certificate_chain) else",
  "edit": "signature length check dropped",
  "claim": "C29,C36",
  "breaks": "short signature is read out of bounds"
 },
 {
  "id": "hs-10",
  "file": "Handshake",
  "definition": "chain_verify",
  "old": "if negb (cb_signing_level parent =? 0)%N then Ok (inr he_bad_certificate_chain)\n          else ",
  "new": "",
  "edit": "end entity level check dropped",
  "claim": "C29",
  "breaks": "a CA certificate is accepted as end entity"
 },
 {
  "id": "hs-11",
  "file": "Handshake",
  "definition": "chain_verify",
  "old": "else if negb (is_dh_key (cb_key_type parent)) then Ok (inr he_bad_certificate_chain)\n",
  "new": "",
  "edit": "end entity key type check dropped",
  "claim": "C29",
  "breaks": "signing key used for key agreement"
 },
 {
  "id": "hs-12",
  "file": "Handshake",
  "definition": "verify_pair",
  "old": "(cb_public_key parent) in",
  "new": "(cb_public_key (match read_all body_read (env_body child_envelope) with inl b => b | _ => parent end)) in",
  "edit": "self-signed: child key verifies the child",
  "claim": "C29",
  "breaks": "any self-signed certificate is accepted"
 },
 {
  "id": "hs-13",
  "file": "Handshake",
  "definition": "verify_loop",
  "old": "verify_loop P S output rest",
  "new": "verify_loop P S parent rest",
  "edit": "every certificate checked against the anchor",
  "claim": "C29",
  "breaks": "chain not a path"
 },
 {
  "id": "hs-14",
  "file": "Handshake",
  "definition": "respond",
  "old": "if negb (major_version (rq_version msg) =? major_version version_get)%N\n  then",
  "new": "if false\n  then",
  "edit": "version check dropped",
  "claim": "C35",
  "breaks": "other versions are accepted"
 },
 {
  "id": "hs-15",
  "file": "Handshake",
  "definition": "process",
  "old": "if negb (is_empty (rq_mode_data msg)) then failure he_bad_message_format\n      else match",
  "new": "match",
  "edit": "mode data check dropped (shared secret)",
  "claim": "C35",
  "breaks": "request with mode data accepted"
 },
 {
  "id": "hs-16",
  "file": "Handshake",
  "definition": "process",
  "old": "[key; rq_mode_ephemeral msg; nonce]",
  "new": "[key; nonce]",
  "edit": "initiator nonce left out of the key material",
  "claim": "C22,C35",
  "breaks": "keys differ"
 },
 {
  "id": "hs-17",
  "file": "Handshake",
  "definition": "responder_param",
  "old": "sc_max_nonce c",
  "new": "32768%N",
  "edit": "responder ignores the requested maximum nonce",
  "claim": "C35,C22",
  "breaks": "constraints differ"
 },
 {
  "id": "hs-18",
  "file": "Handshake",
  "definition": "initiator_finish",
  "old": "p_max_nonce := l_max_nonce l",
  "new": "p_max_nonce := 32768",
  "edit": "initiator uses the default maximum nonce",
  "claim": "C22",
  "breaks": "constraints differ"
 },
 {
  "id": "hs-19",
  "file": "Handshake",
  "definition": "initiator_finish",
  "old": "if (now <? i_time i)%Z then Ok (false, i', session)\n  else",
  "new": "if false then Ok (false, i', session)\n  else",
  "edit": "clock rollback check dropped",
  "claim": "C22",
  "breaks": "session start estimate outside of the exchange"
 },
 {
  "id": "hs-20",
  "file": "Handshake",
  "definition": "initiator_finish",
  "old": "elapsed / 2",
  "new": "elapsed * 2",
  "edit": "estimate of the start wrong",
  "claim": "C22",
  "breaks": "start before the request was sent"
 },
 {
  "id": "hs-21",
  "file": "Handshake",
  "definition": "process",
  "old": "| None => failure he_key_not_found",
  "new": "| None => failure he_unknown",
  "edit": "wrong error for unknown key",
  "claim": "C35",
  "breaks": "documented error not sent"
 },
 {
  "id": "hs-22",
  "file": "Handshake",
  "definition": "read_key_id",
  "old": "if length data =? 8 then",
  "new": "if 8 <=? length data then",
  "edit": "trailing bytes after the key id accepted",
  "claim": "C35",
  "breaks": "mode data longer than 8 bytes accepted"
 },
 {
  "id": "hs-23",
  "file": "Handshake",
  "definition": "configure_dh",
  "old": "  | _ => Some he_unsupported_handshake_ephemeral",
  "new": "  | _ => None",
  "edit": "other ephemeral types accepted",
  "claim": "C35",
  "breaks": "unsupported ephemeral accepted"
 },
 {
  "id": "hs-24",
  "file": "Handshake",
  "definition": "configure_session",
  "old": "if negb (sup_gcm S) then Some he_unsupported_session_mode",
  "new": "if negb (sup_gcm S) then None",
  "edit": "missing AES support ignored",
  "claim": "C35",
  "breaks": "unsupported session mode accepted"
 },
 {
  "id": "hs-25",
  "file": "Handshake",
  "definition": "cert_validate",
  "old": "if negb (is_empty data) then Ok (inr he_bad_message_format)\n      else ",
  "new": "",
  "edit": "preshared key handler ignores certificate data",
  "claim": "C29,C35",
  "breaks": "data ignored"
 },
 {
  "id": "hs-26",
  "file": "Handshake",
  "definition": "cert_validate",
  "old": "if negb (mode_eqb mode hm_industrial_certificates) then Ok (inr he_unsupported_handshake_mode)\n      else",
  "new": "if false then Ok (inr he_unsupported_handshake_mode) else",
  "edit": "industrial handler ignores the mode",
  "claim": "C29,C35",
  "breaks": "mode not checked"
 },
 {
  "id": "hs-27",
  "file": "Handshake",
  "definition": "respond",
  "old": "| inr e => Ok (error_frame E e, pending')",
  "new": "| inr e => Ok (error_frame E e, new_session)",
  "edit": "pending session cleared on error",
  "claim": "C35",
  "breaks": "pending session changes on error"
 },
 {
  "id": "hs-28",
  "file": "Handshake",
  "definition": "finalize_request_tx",
  "old": "i_hash := p_sha256 P (concat [request])",
  "new": "i_hash := i_hash i",
  "edit": "request not hashed by the initiator",
  "claim": "C22,C23,C37",
  "breaks": "transcripts differ"
 },
 {
  "id": "hs-29",
  "file": "Handshake",
  "definition": "initialize_new_handshake",
  "old": "(Some ([], be_bytes 8 id)",
  "new": "(Some ([], be_bytes 4 id)",
  "edit": "key id truncated to 4 bytes",
  "claim": "C22",
  "breaks": "responder cannot find the key"
 },
 {
  "id": "hs-30",
  "file": "Handshake",
  "definition": "triple_dh",
  "old": "let* r2 := dh_x25519 P ephemeral_priv remote_static in",
  "new": "let* r2 := dh_x25519 P static_priv remote_static in",
  "edit": "static-static instead of ephemeral-static",
  "claim": "C35,C22",
  "breaks": "not the specified key material"
 },
 {
  "id": "hs-31",
  "file": "Handshake",
  "definition": "process",
  "old": "if negb (length (rq_mode_ephemeral msg) =? 32) then failure he_bad_message_format\n          else\n",
  "new": "",
  "edit": "ephemeral key length check dropped in the responder",
  "claim": "C36,C35",
  "breaks": "short ephemeral key read out of bounds"
 },
 {
  "id": "hs-32",
  "file": "Handshake",
  "definition": "verify_presented_chain",
  "old": "match r with inr _ => Ok None | inl _ => Ok (Some (cf_payload file)) end",
  "new": "Ok (Some (cf_payload file))",
  "edit": "own chain not verified",
  "claim": "C29",
  "breaks": "presents an invalid chain"
 }
]