[
 {
  "id": "ep-1",
  "file": "Endpoint",
  "definition": "try_read_one",
  "old": "       | Some _ => Ok (s1, [], q)\n       | None =>",
  "new": "       | Some _ | None =>",
  "edit": "messages are read although a payload is waiting",
  "claim": "C34,C25",
  "breaks": "payload overwritten before it is read"
 },
 {
  "id": "ep-2",
  "file": "Endpoint",
  "definition": "begin_transmit",
  "old": "set_remainder (set_transmitting s true) rest",
  "new": "set_transmitting s true",
  "edit": "remainder not shortened after a chunk",
  "claim": "C33",
  "breaks": "the same chunk is sent again"
 },
 {
  "id": "ep-3",
  "file": "Endpoint",
  "definition": "check_transmit",
  "old": "if negb (in_ready inp && tx_ready s1) then",
  "new": "if negb (in_ready inp) then",
  "edit": "transmits although a transmission of the buffer is in progress or nothing remains",
  "claim": "C33,C41",
  "breaks": "empty data messages"
 },
 {
  "id": "ep-4",
  "file": "Endpoint",
  "definition": "check_transmit",
  "old": "if negb (in_ready inp && tx_ready s1) then",
  "new": "if negb (tx_ready s1) then",
  "edit": "transmits although the lower layer is busy",
  "claim": "C41",
  "breaks": "two transmissions at once"
 },
 {
  "id": "ep-5",
  "file": "Endpoint",
  "definition": "activate",
  "old": "set_pending (set_active s (ep_pending s)) (reset (ep_active s))",
  "new": "set_pending (set_active s (ep_pending s)) (ep_pending s)",
  "edit": "pending session stays valid after it became active",
  "claim": "C14,C15,C24,C25,C28",
  "breaks": "the authentication message can be replayed against the pending copy"
 },
 {
  "id": "ep-6",
  "file": "Endpoint",
  "definition": "enter",
  "old": "Ok (set_payload s2 None, [IUpClose; ICloseTail], [EvClosed])",
  "new": "Ok (s2, [IUpClose; ICloseTail], [EvClosed])",
  "edit": "payload kept over a close",
  "claim": "C28,C34",
  "breaks": "data of the closed connection is delivered later"
 },
 {
  "id": "ep-7",
  "file": "Endpoint",
  "definition": "exec",
  "old": "Ok (set_proc (set_remainder (set_transmitting s false) [])",
  "new": "Ok (set_proc (set_transmitting s false)",
  "edit": "transmit buffer kept over a close",
  "claim": "C28,C33",
  "breaks": "data of the closed connection is sent later"
 },
 {
  "id": "ep-8",
  "file": "Endpoint",
  "definition": "enter",
  "old": "let s2 := set_pending (set_active s1 (reset (ep_active s1))) (reset (ep_pending s1)) in",
  "new": "let s2 := set_pending s1 (reset (ep_pending s1)) in",
  "edit": "active session kept over a close",
  "claim": "C28",
  "breaks": "old keys usable after reconnect"
 },
 {
  "id": "ep-9",
  "file": "Endpoint",
  "definition": "reset_state_on_close",
  "old": "set_required (set_session_timer (set_timer (set_state s Idle) None) false) false",
  "new": "set_required (set_session_timer (set_state s Idle) false) false",
  "edit": "response timer not cancelled on close",
  "claim": "C27",
  "breaks": "timer fires in the wrong state"
 },
 {
  "id": "ep-10",
  "file": "Endpoint",
  "definition": "on_auth_message",
  "old": "let s3 := start_session_timer (set_required (activate s2) false) in",
  "new": "let s3 := set_required (activate s2) false in",
  "edit": "session timer not started",
  "claim": "C27",
  "breaks": "session never renegotiated, nothing pending"
 },
 {
  "id": "ep-11",
  "file": "Endpoint",
  "definition": "on_auth_message",
  "old": "let s3 := start_session_timer (set_required (activate s2) false) in",
  "new": "let s3 := start_session_timer (activate s2) in",
  "edit": "handshake-required flag not cleared",
  "claim": "C27",
  "breaks": "flag set while the session timer runs"
 },
 {
  "id": "ep-12",
  "file": "Endpoint",
  "definition": "exec",
  "old": "| IUpOpen => if ep_up s then Ok (s, [], []) else notify (set_up s true) inp EvUpOpen",
  "new": "| IUpOpen => notify (set_up s true) inp EvUpOpen",
  "edit": "open notified again on renegotiation",
  "claim": "C26",
  "breaks": "two opens in a row"
 },
 {
  "id": "ep-13",
  "file": "Endpoint",
  "definition": "process_message",
  "old": "| inl msg => if (am_nonce (sd_metadata msg) =? 0)%N then on_auth_session C s msg inp else on_session_data C s msg inp",
  "new": "| inl msg => if (am_nonce (sd_metadata msg) =? 0)%N then on_session_data C s msg inp else on_auth_session C s msg inp",
  "edit": "dispatch on nonce inverted in the responder",
  "claim": "C25,C14",
  "breaks": "data accepted as authentication"
 },
 {
  "id": "ep-14",
  "file": "Endpoint",
  "definition": "on_error_message",
  "old": "| WaitForBeginReply | WaitForAuthReply => Ok (retry (set_timer s None), [], [])",
  "new": "| WaitForBeginReply | WaitForAuthReply => Ok (retry s, [], [])",
  "edit": "timer not cancelled before retry",
  "claim": "C27",
  "breaks": "two timers running"
 },
 {
  "id": "ep-15",
  "file": "Endpoint",
  "definition": "on_error_message",
  "old": "| WaitForBeginReply | WaitForAuthReply => Ok (retry (set_timer s None), [], [])",
  "new": "| WaitForBeginReply | WaitForAuthReply => Ok (retry (set_timer (set_active s (reset (ep_active s))) None), [], [])",
  "edit": "an error message resets the active session",
  "claim": "C24",
  "breaks": "unauthenticated message destroys a session"
 },
 {
  "id": "ep-16",
  "file": "Endpoint",
  "definition": "on_request",
  "old": "let s1 := set_pending s pending' in\n    match r with",
  "new": "let s1 := set_active (set_pending s pending') (reset (ep_active s)) in\n    match r with",
  "edit": "a handshake request resets the active session",
  "claim": "C24",
  "breaks": "unauthenticated message destroys a session"
 },
 {
  "id": "ep-17",
  "file": "Endpoint",
  "definition": "on_retry_timeout",
  "old": "match ep_state s with WaitForRetry => set_state s Idle | _ => s end",
  "new": "s",
  "edit": "retry timeout does not leave the retry state",
  "claim": "C27",
  "breaks": "initiator stuck"
 },
 {
  "id": "ep-18",
  "file": "Endpoint",
  "definition": "exec",
  "old": "| Initiator _ => Ok (s, if ep_required s then [IHandshakeRequired] else [], [])",
  "new": "| Initiator _ => Ok (s, [], [])",
  "edit": "remembered handshake not started when the lower layer is ready",
  "claim": "C27",
  "breaks": "initiator stuck"
 },
 {
  "id": "ep-19",
  "file": "Endpoint",
  "definition": "start_rx",
  "old": "if ep_proc s then set_proc (set_payload s None) false else s",
  "new": "if ep_proc s then set_proc s false else s",
  "edit": "payload not discarded after it was read",
  "claim": "C34",
  "breaks": "payload delivered twice"
 },
 {
  "id": "ep-20",
  "file": "Endpoint",
  "definition": "start_tx",
  "old": "if ep_open s && ep_up s && tx_idle s",
  "new": "if ep_open s && ep_up s && negb (ep_transmitting s)",
  "edit": "new buffer accepted while part of the old one remains",
  "claim": "C33",
  "breaks": "rest of the old buffer lost"
 },
 {
  "id": "ep-21",
  "file": "Endpoint",
  "definition": "start_tx",
  "old": "if ep_open s && ep_up s && tx_idle s",
  "new": "if ep_open s && tx_idle s",
  "edit": "buffer accepted before the layer is open",
  "claim": "C28,C33",
  "breaks": "data accepted without session"
 },
 {
  "id": "ep-22",
  "file": "Endpoint",
  "definition": "enter",
  "old": "let complete := ep_transmitting s0 && is_empty (ep_remainder s0) in",
  "new": "let complete := ep_transmitting s0 in",
  "edit": "ready notified although part of the buffer remains",
  "claim": "C33",
  "breaks": "application told ready too early"
 },
 {
  "id": "ep-23",
  "file": "Endpoint",
  "definition": "transmit_session_auth",
  "old": "let s1 := if is_empty (ep_remainder s) then s else begin_transmit s rest in",
  "new": "let s1 := s in",
  "edit": "data in the authentication message not taken off the buffer",
  "claim": "C33",
  "breaks": "data sent twice"
 },
 {
  "id": "ep-24",
  "file": "Endpoint",
  "definition": "on_session_data",
  "old": "let* (r, active', _) := validate_session_data (c_env C) (ep_active s) msg (in_now inp) (c_payload_size C) in\n  let s1 := set_buffer (set_active s active')",
  "new": "let* (r, active', _) := validate_session_data (c_env C) (ep_active s) msg (in_now inp) (c_payload_size C) in\n  let s1 := set_buffer s",
  "edit": "updated receive nonce not stored",
  "claim": "C14",
  "breaks": "replay accepted"
 },
 {
  "id": "ep-25",
  "file": "Endpoint",
  "definition": "check_transmit",
  "old": "Ok (started (begin_transmit (set_active s1 active') rest) inp, [INonceChange],",
  "new": "Ok (started (begin_transmit s1 rest) inp, [INonceChange],",
  "edit": "updated transmit nonce not stored",
  "claim": "C15",
  "breaks": "nonce reused"
 },
 {
  "id": "ep-26",
  "file": "Endpoint",
  "definition": "on_auth_message",
  "old": "match ep_state s with\n  | WaitForAuthReply =>",
  "new": "match ep_state s with\n  | WaitForAuthReply | WaitForBeginReply =>",
  "edit": "authentication accepted before the reply",
  "claim": "C27,C25",
  "breaks": "authentication in the wrong state"
 },
 {
  "id": "ep-27",
  "file": "Endpoint",
  "definition": "on_handshake_required",
  "old": "| _ => Ok (set_required s true, [], [])\n  end.",
  "new": "| _ => Ok (s, [], [])\n  end.",
  "edit": "handshake required while one is in progress is forgotten",
  "claim": "C27",
  "breaks": "nothing pending afterwards"
 },
 {
  "id": "ep-28",
  "file": "Endpoint",
  "definition": "on_reply_message",
  "old": "else Ok (set_state (start_timer s4 TResponse) WaitForAuthReply, [], [EvKeys pending'] ++ ev)",
  "new": "else Ok (set_state s4 WaitForAuthReply, [], [EvKeys pending'] ++ ev)",
  "edit": "no response timer for the authentication",
  "claim": "C27",
  "breaks": "initiator waits for ever"
 },
 {
  "id": "ep-29",
  "file": "Endpoint",
  "definition": "enter",
  "old": "| LowerClose =>\n      if ep_open s then",
  "new": "| LowerClose =>\n      if ep_open s && ep_up s then",
  "edit": "close ignored before a session is established",
  "claim": "C28,C27",
  "breaks": "handshake state kept over a close"
 },
 {
  "id": "ep-30",
  "file": "Endpoint",
  "definition": "on_auth_session",
  "old": "if negb (s_valid (ep_pending s)) then reply_error C s he_no_prior_handshake_begin inp",
  "new": "if false then reply_error C s he_no_prior_handshake_begin inp",
  "edit": "authentication processed without a handshake",
  "claim": "C35",
  "breaks": "an authentication message without a handshake is answered with an error",
  "tightened": [
   "C35_endpoint_no_handshake"
  ]
 }
]