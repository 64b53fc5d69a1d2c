[
 {
  "id": "S1",
  "file": "Endpoint",
  "definition": "on_response_timeout",
  "old": "WaitForBeginReply | WaitForAuthReply => retry s | _ => s end",
  "new": "WaitForBeginReply => retry s | _ => s end",
  "edit": "the expired response timer is ignored while the authentication reply is awaited",
  "claim": "a timer is running whenever the initiator waits",
  "breaks": "C53,C27"
 },
 {
  "id": "S2",
  "file": "Endpoint",
  "definition": "on_response_timeout",
  "old": "WaitForBeginReply | WaitForAuthReply => retry s | _ => s end",
  "new": "WaitForBeginReply | WaitForAuthReply => set_state s WaitForRetry | _ => s end",
  "edit": "the retry timer is not started when no answer came",
  "claim": "a timer is running whenever the initiator waits",
  "breaks": "C53,C27"
 },
 {
  "id": "S3",
  "file": "Endpoint",
  "definition": "on_retry_timeout",
  "old": "WaitForRetry => set_state s Idle | _ => s end",
  "new": "WaitForRetry => s | _ => s end",
  "edit": "the initiator does not leave the wait for the retry when the retry timer expires",
  "claim": "a new session is agreed on after the timers expire",
  "breaks": "C53"
 },
 {
  "id": "S4",
  "file": "Endpoint",
  "definition": "fire",
  "old": "TRetry => (on_retry_timeout s, [IHandshakeRequired])",
  "new": "TRetry => (on_retry_timeout s, [])",
  "edit": "the expired retry timer begins no new handshake",
  "claim": "a new session is agreed on after the timers expire",
  "breaks": "C53"
 },
 {
  "id": "S5",
  "file": "Endpoint",
  "definition": "on_request",
  "old": "let s1 := set_pending s pending' in\n    match r with",
  "new": "let s1 := if s_valid (ep_active s) then s else set_pending s pending' in\n    match r with",
  "edit": "the responder keeps the old pending session when it has an active one",
  "claim": "a responder that still has a session accepts the new handshake of the initiator",
  "breaks": "C53,C52"
 },
 {
  "id": "S6",
  "file": "Endpoint",
  "definition": "on_auth_session",
  "old": "let s2 := activate s1 in",
  "new": "let s2 := if s_valid (ep_active s1) then s1 else activate s1 in",
  "edit": "the responder does not replace a valid session",
  "claim": "a responder that still has a session changes to the new one",
  "breaks": "C53,C52"
 },
 {
  "id": "S7",
  "file": "Endpoint",
  "definition": "on_error_message",
  "old": "retry (set_timer s None)",
  "new": "set_state (set_timer s None) WaitForRetry",
  "edit": "no retry timer after an error message",
  "claim": "a timer is running whenever the initiator waits, also after error messages of the responder",
  "breaks": "C53,C27"
 },
 {
  "id": "S8",
  "file": "Endpoint",
  "definition": "on_reply_message",
  "old": "if negb ok then Ok (retry s2, [], [])",
  "new": "if negb ok then Ok (s2, [], [])",
  "edit": "a bad reply stops the response timer and nothing else happens",
  "claim": "a timer is running whenever the initiator waits, also after forged replies",
  "breaks": "C53,C27"
 }
]