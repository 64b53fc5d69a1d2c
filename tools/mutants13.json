[
 {
  "id": "L1",
  "file": "Endpoint",
  "definition": "enter (LowerTxReady)",
  "old": "(if complete then [IUpTxReady] else []) ++ [ITryRead; ICheckTransmit], [])",
  "new": "(if complete then [IUpTxReady] else []) ++ [ITryRead], [])",
  "edit": "the next part of the data is not sent when a transmission has ended",
  "claim": "everything given to an endpoint is delivered",
  "breaks": "C48"
 },
 {
  "id": "L2",
  "file": "Endpoint",
  "definition": "enter (LowerTxReady)",
  "old": "Ok (set_transmitting s0 false,",
  "new": "Ok (set_transmitting s0 (negb complete),",
  "edit": "only the end of the last part of the data ends a transmission",
  "claim": "everything given to an endpoint is delivered",
  "breaks": "C48"
 },
 {
  "id": "L3",
  "file": "Endpoint",
  "definition": "on_auth_session",
  "old": "else Ok (s4, [IUpOpen; IAuthPayload",
  "new": "else Ok (s4, [IAuthPayload",
  "edit": "the responder does not open its upper layer",
  "claim": "both applications are told that the layer is open",
  "breaks": "C48"
 },
 {
  "id": "L4",
  "file": "Endpoint",
  "definition": "on_session_data",
  "old": "payload), [INonceChange; IUpRxReady],",
  "new": "payload), [INonceChange],",
  "edit": "the application is not told that there is data",
  "claim": "the application is told that there is data to read",
  "breaks": "C48,C34"
 },
 {
  "id": "L5",
  "file": "Endpoint",
  "definition": "on_nonce_change",
  "old": "(ic_nonce_trigger c <=? N.max",
  "new": "(ic_nonce_trigger c <=? 2 * N.max",
  "edit": "the initiator renegotiates after half of the messages",
  "claim": "a conversation within the limits stays in one session",
  "breaks": "C48"
 },
 {
  "id": "L6",
  "file": "Endpoint",
  "definition": "start_tx",
  "old": "then Ok (set_remainder (set_transmitting s false) data, [ICheckTransmit]",
  "new": "then Ok (set_remainder (set_transmitting s false) data, []",
  "edit": "accepted data is not sent until the next transmission ends",
  "claim": "everything given to an endpoint is delivered",
  "breaks": "C48"
 },
 {
  "id": "L7",
  "file": "Endpoint",
  "definition": "start_rx",
  "old": "| None => Ok (s1, [ITryRead], [])",
  "new": "| None => Ok (s1, [], [])",
  "edit": "after the data was read, the next message is not read from the lower layer",
  "claim": "everything given to an endpoint is delivered",
  "breaks": "C48"
 },
 {
  "id": "L8",
  "file": "Endpoint",
  "definition": "on_auth_session",
  "old": "transmit_session_auth C s2 (ep_active s2) inp in",
  "new": "transmit_session_auth C s2 (ep_active s2) (Build_input (in_now inp) (in_now inp - 1) (in_ready inp) (in_message inp) (in_started inp) (in_calls inp) (in_answers inp) (in_ianswers inp) (in_scratch inp)) in",
  "edit": "the answer is formatted with a time before that of its validation",
  "claim": "the handshake completes on a reliable line",
  "breaks": "C48"
 },
 {
  "id": "L9",
  "file": "Endpoint",
  "definition": "on_handshake_required",
  "old": "finalize_request_tx (e_prims (c_env C)) written (in_now inp) (ep_ihs s2)",
  "new": "finalize_request_tx (e_prims (c_env C)) written 0 (ep_ihs s2)",
  "edit": "the time of the request is not recorded",
  "claim": "the handshake completes on a reliable line",
  "breaks": "C48"
 },
 {
  "id": "L10",
  "file": "Session",
  "definition": "format_no_nonce_check",
  "old": "am_valid_until_ms := u32 (to_ms (session_time + ms (e_ttl_pad_ms E))) |} in",
  "new": "am_valid_until_ms := u32 (to_ms session_time) |} in",
  "edit": "the time to live is not added to the time of the message",
  "claim": "messages within their time to live are accepted",
  "breaks": "C48,C16"
 },
 {
  "id": "L11",
  "file": "Session",
  "definition": "validate_with",
  "old": "(ms (am_valid_until_ms (sd_metadata msg)) <? current)%Z",
  "new": "(ms (am_valid_until_ms (sd_metadata msg)) <? current + ms (e_ttl_pad_ms E))%Z",
  "edit": "messages are accepted only while half of their time to live is left",
  "claim": "messages within their time to live are accepted",
  "breaks": "C48,C16"
 },
 {
  "id": "L12",
  "file": "Handshake",
  "definition": "initiator_finish",
  "old": "let start := (now - elapsed / 2)%Z in",
  "new": "let start := (now + elapsed / 2)%Z in",
  "edit": "the start of the session is estimated after the reply",
  "claim": "the handshake completes on a reliable line",
  "breaks": "C48,C22"
 },
 {
  "id": "L13",
  "file": "Endpoint",
  "definition": "on_auth_session",
  "old": "let s4 := set_active s3 active' in",
  "new": "let s4 := s3 in",
  "edit": "the responder does not store that nonce zero was used",
  "claim": "data of the responder is accepted by the initiator",
  "breaks": "C48,C15"
 },
 {
  "id": "L14",
  "file": "Endpoint",
  "definition": "activate",
  "old": "set_pending (set_active s (ep_pending s)) (reset (ep_active s))",
  "new": "set_pending (set_active s (set_rx_nonce (ep_pending s) 1)) (reset (ep_active s))",
  "edit": "the authentication counts as message one",
  "claim": "the first data message is accepted",
  "breaks": "C48"
 },
 {
  "id": "L15",
  "file": "Endpoint",
  "definition": "begin_transmit",
  "old": "set_remainder (set_transmitting s true) rest",
  "new": "set_remainder (set_transmitting s true) (tl rest)",
  "edit": "a byte is dropped between the parts of the data",
  "claim": "what is read is what was given, byte for byte",
  "breaks": "C48,C19"
 },
 {
  "id": "L16",
  "file": "Endpoint",
  "definition": "on_auth_message",
  "old": "IAuthPayload (payload_slice mode (ep_generation s3) payload); ISetState Idle]",
  "new": "IAuthPayload (payload_slice mode (ep_generation s3) payload)]",
  "edit": "the initiator stays in the state after the authentication",
  "claim": "a later renegotiation is possible",
  "breaks": "C27,C48"
 },
 {
  "id": "L17",
  "file": "Endpoint",
  "definition": "try_read_one",
  "old": "Ok (s2, [IProcess (in_message inp); ITryRead]",
  "new": "Ok (s2, [IProcess (in_message inp)]",
  "edit": "only one message is read per notification",
  "claim": "everything given to an endpoint is delivered",
  "breaks": "C48"
 },
 {
  "id": "L18",
  "file": "Endpoint",
  "definition": "transmit_session_auth",
  "old": "Ok (in_started inp, sess', started s1 inp,",
  "new": "Ok (in_started inp, sess', s1,",
  "edit": "the layer does not know that its lower layer transmits",
  "claim": "one transmission at a time",
  "breaks": "C48,C41"
 },
 {
  "id": "L19",
  "file": "Endpoint",
  "definition": "exec (ISetState)",
  "old": "| IUpOpen => if ep_up s then Ok (s, [], []) else notify (set_up s true) inp EvUpOpen",
  "new": "| IUpOpen => if ep_up s then Ok (s, [], []) else notify s inp EvUpOpen",
  "edit": "the upper layer is told that it is open but the layer does not remember it",
  "claim": "data given in the open notification is accepted",
  "breaks": "C48,C26"
 }
]