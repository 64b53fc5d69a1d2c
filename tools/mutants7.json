[
 {
  "id": "pair-1",
  "file": "Endpoint",
  "definition": "on_reply_message",
  "old": "Ok (retry s2, [], [])\n      else\n        let* (sent, pending'', s3, ev) := transmit_session_auth C s2 pending' inp in",
  "new": "Ok (retry s2, [], [])\n      else\n        let* (sent, pending'', s3, ev) := transmit_session_auth C s2 (ep_active s2) inp in",
  "edit": "the initiator's authentication is sealed under the active session",
  "claim": "C44,C15",
  "breaks": "the first message of a session is not sealed under its key"
 },
 {
  "id": "pair-2",
  "file": "Endpoint",
  "definition": "on_auth_session",
  "old": "let* (sent, active', s3, ev) := transmit_session_auth C s2 (ep_active s2) inp in",
  "new": "let* (sent, active', s3, ev) := transmit_session_auth C s2 (ep_active s1) inp in",
  "edit": "the responder answers under the previous session",
  "claim": "C44,C15",
  "breaks": "the answer is sealed under the wrong key"
 },
 {
  "id": "pair-3",
  "file": "Endpoint",
  "definition": "check_transmit",
  "old": "q ++ [EvTx (TxData (taken (ep_remainder s1) rest)) frame]",
  "new": "q ++ [EvTx (TxData (ep_remainder s1)) frame]",
  "edit": "the whole buffer is reported as sent",
  "claim": "C44",
  "breaks": "a long buffer counts as sent although only the first part was sealed"
 },
 {
  "id": "pair-4",
  "file": "Endpoint",
  "definition": "transmit_session_auth",
  "old": "Ok (in_started inp, sess', started s1 inp,",
  "new": "Ok (in_started inp, sess, started s1 inp,",
  "edit": "the nonce consumed by the authentication is not stored",
  "claim": "C44,C15",
  "breaks": "the first data message reuses nonce 0"
 },
 {
  "id": "pair-5",
  "file": "Endpoint",
  "definition": "start_rx",
  "old": "Some p => let* bytes := slice_bytes s1 p in Ok (set_proc s1 true, [], [EvRead bytes])",
  "new": "Some p => let* bytes := slice_bytes s1 p in Ok (s1, [], [EvRead bytes])",
  "edit": "a payload that was read is not marked as read",
  "claim": "C44",
  "breaks": "the application reads the same data twice"
 },
 {
  "id": "pair-6",
  "file": "Endpoint",
  "definition": "slice_bytes",
  "old": "Ok (firstn n (ep_buffer s))",
  "new": "Ok (ep_buffer s)",
  "edit": "the whole buffer is handed to the application",
  "claim": "C44",
  "breaks": "data that was never sent is delivered"
 },
 {
  "id": "pair-7",
  "file": "Endpoint",
  "definition": "buffer_after",
  "old": "inl payload => payload ++ skipn (length payload) buffer",
  "new": "inl payload => firstn (length buffer) (skipn 1 payload ++ buffer)",
  "edit": "the decrypted data is stored at the wrong offset",
  "claim": "C44",
  "breaks": "the data delivered is not the data sent"
 },
 {
  "id": "pair-8",
  "file": "Endpoint",
  "definition": "on_session_data",
  "old": "Ok (set_payload s1 (payload_slice mode (ep_generation s1) payload), [INonceChange; IUpRxReady],\n          [EvDataOk active' msg payload])",
  "new": "Ok (set_payload s1 (payload_slice mode (ep_generation s1) (sd_user_data msg)), [INonceChange; IUpRxReady],\n          [EvDataOk active' msg payload])",
  "edit": "the ciphertext is delivered",
  "claim": "C44",
  "breaks": "with AES-GCM the application gets the wrong number of bytes / ciphertext length"
 },
 {
  "id": "pair-9",
  "file": "Session",
  "definition": "initialize",
  "old": "{| s_valid := true; s_rx_nonce := 0; s_tx_nonce := 0; s_keys := k;",
  "new": "{| s_valid := true; s_rx_nonce := s_rx_nonce s; s_tx_nonce := 0; s_keys := k;",
  "edit": "the receive nonce of the previous session is kept",
  "claim": "C44",
  "breaks": "the authentication of the next session is refused or data replayed"
 },
 {
  "id": "pair-10",
  "file": "Session",
  "definition": "verify_greater_than_last",
  "old": "(last <? new)%N",
  "new": "(last <=? new)%N",
  "edit": "the last message can be replayed",
  "claim": "C44,C12",
  "breaks": "data is delivered twice"
 },
 {
  "id": "pair-11",
  "file": "Session",
  "definition": "verify_strict_increment",
  "old": "(new =? last + 1)%N",
  "new": "(last + 1 <=? new)%N",
  "edit": "gaps are accepted with strict nonces",
  "claim": "C44",
  "breaks": "data is missing in the middle"
 },
 {
  "id": "pair-12",
  "file": "Session",
  "definition": "format_no_nonce_check",
  "old": "am_nonce := s_tx_nonce s;",
  "new": "am_nonce := u16 (s_tx_nonce s + 1);",
  "edit": "the next nonce is put into the message",
  "claim": "C44,C15",
  "breaks": "the nonce sealed is not the number of messages sealed before"
 },
 {
  "id": "pair-13",
  "file": "Session",
  "definition": "mode_write",
  "old": "skipn n user_data)\n    end.",
  "new": "skipn (S n) user_data)\n    end.",
  "edit": "one byte too many is dropped between two parts",
  "claim": "C44",
  "breaks": "a byte in the middle of a buffer is lost"
 },
 {
  "id": "pair-14",
  "file": "Endpoint",
  "definition": "activate",
  "old": "set_pending (set_active s (ep_pending s)) (reset (ep_active s))",
  "new": "set_pending (set_active s (ep_pending s)) (ep_active s)",
  "edit": "the old session becomes the pending one and stays valid",
  "claim": "C44,C15",
  "breaks": "the old session can be authenticated again"
 },
 {
  "id": "pair-15",
  "file": "Endpoint",
  "definition": "on_auth_message",
  "old": "EvAuthOk pending' msg payload",
  "new": "EvAuthOk (ep_pending s) msg payload",
  "edit": "the session recorded is the one before the message",
  "claim": "C44",
  "breaks": "the record does not contain the received nonce",
  "nth": 0
 },
 {
  "id": "pair-16",
  "file": "Endpoint",
  "definition": "start_tx",
  "old": "Ok (set_remainder (set_transmitting s false) data, [ICheckTransmit], [EvAccept data])",
  "new": "Ok (set_remainder (set_transmitting s false) (ep_remainder s ++ tl data), [ICheckTransmit], [EvAccept data])",
  "edit": "the first byte of the buffer is lost",
  "claim": "C44",
  "breaks": "data sent is not what was given"
 },
 {
  "id": "pair-17",
  "file": "Endpoint",
  "definition": "exec",
  "old": "Ok (set_proc (set_remainder (set_transmitting s false) []) (if",
  "new": "Ok (set_proc (set_remainder (set_transmitting s false) (ep_remainder s)) (if",
  "edit": "rest of the buffer kept over a close",
  "claim": "C44",
  "breaks": "the rest of an old buffer is sent after a reconnection"
 },
 {
  "id": "pair-18",
  "file": "Session",
  "definition": "mode_read",
  "old": "aead_decrypt P mode key (am_nonce (sd_metadata msg))",
  "new": "aead_decrypt P mode key 0",
  "edit": "messages are opened with a constant AES-GCM nonce",
  "claim": "C44",
  "breaks": "messages sealed with AES-GCM do not open; the opened data is not the data sealed"
 }
]