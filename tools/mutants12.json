[
 {
  "id": "F1",
  "file": "Endpoint",
  "definition": "try_read_one",
  "old": "       | Some _ => Ok (s1, [], q)\n       | None =>",
  "new": "       | Some (InBuffer _) => Ok (s1, [], q)\n       | _ =>",
  "edit": "a message held for the application does not stop the reading of the next one (HMAC)",
  "claim": "data returned to the application is never a slice of a message the lower layer no longer keeps",
  "breaks": "C36"
 },
 {
  "id": "F2",
  "file": "Endpoint",
  "definition": "on_session_data",
  "old": "(ep_active s) msg (in_now inp) (c_payload_size C)",
  "new": "(ep_active s) msg (in_now inp) (c_payload_size C - 1)",
  "edit": "destination slice one byte too short",
  "claim": "user data that fits into the receive buffer does no harm",
  "breaks": "C36"
 },
 {
  "id": "F3",
  "file": "Handshake",
  "definition": "process",
  "old": "if negb (length (rq_mode_ephemeral msg) =? 32) then failure he_bad_message_format\n          else\n            let* v",
  "new": "if (length (rq_mode_ephemeral msg) =? 0) then failure he_bad_message_format\n          else\n            let* v",
  "edit": "the length of the ephemeral key in a request is not checked",
  "claim": "key agreement is only called with keys of the right length",
  "breaks": "C36"
 },
 {
  "id": "F4",
  "file": "Session",
  "definition": "mode_read",
  "old": "  if negb (length key =? symmetric_key_length) then Ok (inr e_bad_buffer_size)\n  else aead_decrypt",
  "new": "  if negb (length key =? symmetric_key_length) then UB\n  else aead_decrypt",
  "edit": "missing length check of the key: decrypting with an unset key is out of bounds",
  "claim": "messages before any handshake do no harm",
  "breaks": "C36"
 },
 {
  "id": "F5",
  "file": "Endpoint",
  "definition": "on_auth_message / on_auth_session",
  "old": "let* (r, pending', _) := validate_session_auth (c_env C) (ep_pending s) msg (in_now inp) (c_payload_size C) in",
  "new": "let* (r, pending', _) := validate_session_auth (c_env C) (ep_pending s) msg (in_now inp) 0 in",
  "edit": "the responder gives an empty destination for the payload of the authentication message",
  "claim": "user data that fits into the receive buffer does no harm",
  "breaks": "C36"
 }
]