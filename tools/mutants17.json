[
 {
  "id": "R1",
  "file": "Endpoint",
  "definition": "on_auth_message",
  "old": "start_session_timer (set_required (activate s2) false)",
  "new": "set_required (activate s2) false",
  "edit": "the session timer is not started when the session is authenticated",
  "claim": "the initiator is ready for the next renewal",
  "breaks": "C52,C27"
 },
 {
  "id": "R2",
  "file": "Endpoint",
  "definition": "on_auth_message",
  "old": "ISetState Idle]",
  "new": "ISetState WaitForAuthReply]",
  "edit": "the initiator does not return to the idle state after the handshake",
  "claim": "the initiator is ready for the next renewal",
  "breaks": "C52"
 },
 {
  "id": "R3",
  "file": "Endpoint",
  "definition": "inject",
  "old": "| FireSession => if ep_session_timer s then (set_session_timer s false, [IHandshakeRequired]) else (s, [])",
  "new": "| FireSession => if ep_session_timer s then (set_session_timer s false, []) else (s, [])",
  "edit": "the expired session timer starts nothing",
  "claim": "afterwards both sides use a new session",
  "breaks": "C52"
 },
 {
  "id": "R4",
  "file": "Endpoint",
  "definition": "on_request",
  "old": "let s1 := set_pending s pending' in\n    match r with",
  "new": "let s1 := set_pending (set_active s (reset (ep_active s))) pending' in\n    match r with",
  "edit": "a new handshake request ends the session in use",
  "claim": "the old session stays in use while the new one is agreed on",
  "breaks": "C52,C48,C24"
 },
 {
  "id": "R5",
  "file": "Endpoint",
  "definition": "on_auth_session",
  "old": "let s2 := activate s1 in",
  "new": "let s2 := if s_valid (ep_active s1) then s1 else activate s1 in",
  "edit": "the responder goes on using the old session when the new one is authenticated",
  "claim": "afterwards both sides use the new session",
  "breaks": "C52,C48"
 },
 {
  "id": "R6",
  "file": "Endpoint",
  "definition": "on_auth_message",
  "old": "start_session_timer (set_required (activate s2) false)",
  "new": "start_session_timer (set_required (if s_valid (ep_active s2) then s2 else activate s2) false)",
  "edit": "the initiator goes on using the old session when the new one is authenticated",
  "claim": "afterwards both sides use the new session",
  "breaks": "C52"
 },
 {
  "id": "R7",
  "file": "Endpoint",
  "definition": "exec",
  "old": "| IUpOpen => if ep_up s then Ok (s, [], []) else",
  "new": "| IUpOpen => if ep_up s then notify (set_up s false) inp EvUpClose else",
  "edit": "the upper layer is closed when a second session is authenticated",
  "claim": "neither application is told that the layer closed",
  "breaks": "C52,C26"
 },
 {
  "id": "R8",
  "file": "Endpoint",
  "definition": "on_handshake_required",
  "old": "| Idle =>\n      let s1 := asked s inp in",
  "new": "| Idle =>\n      let s1 := asked (set_active s (reset (ep_active s))) inp in",
  "edit": "the old session is ended when the renewal begins",
  "claim": "the old session stays in use while the new one is agreed on (data received under it is still delivered)",
  "breaks": "C52"
 },
 {
  "id": "R9",
  "file": "Endpoint",
  "definition": "on_handshake_required",
  "old": "| Idle =>\n      let s1 := asked s inp in",
  "new": "| Idle =>\n      let s1 := asked (set_payload s None) inp in",
  "edit": "a received payload is dropped when a handshake begins",
  "claim": "what was given is delivered",
  "breaks": "C52,C34,C48"
 }
]