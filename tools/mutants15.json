[
 {
  "id": "V1",
  "file": "Endpoint",
  "definition": "reset_state_on_close",
  "old": "Initiator _ => set_required (set_session_timer (set_timer (set_state s Idle) None) false) false",
  "new": "Initiator _ => set_required (set_session_timer (set_timer s None) false) false",
  "edit": "the state of the handshake is not reset when the connection closes",
  "claim": "a new connection starts a handshake",
  "breaks": "C50"
 },
 {
  "id": "V2",
  "file": "Endpoint",
  "definition": "reset_state_on_close",
  "old": "Initiator _ => set_required (set_session_timer (set_timer (set_state s Idle) None) false) false",
  "new": "Initiator _ => set_session_timer (set_timer (set_state s Idle) None) false",
  "edit": "a required handshake is remembered over a close",
  "claim": "the new connection behaves like the first one",
  "breaks": "C50"
 },
 {
  "id": "V3",
  "file": "Endpoint",
  "definition": "enter (LowerClose)",
  "old": "Ok (set_payload s2 None, [IUpClose; ICloseTail], [EvClosed])",
  "new": "Ok (s2, [IUpClose; ICloseTail], [EvClosed])",
  "edit": "unread data is kept over a close",
  "claim": "nothing of the past reappears",
  "breaks": "C50"
 },
 {
  "id": "V4",
  "file": "Endpoint",
  "definition": "exec (ICloseTail)",
  "old": "Ok (set_proc (set_remainder (set_transmitting s false) [])",
  "new": "Ok (set_proc (set_remainder s [])",
  "edit": "a transmission is still considered in progress after a close",
  "claim": "nothing is lost on the new connection",
  "breaks": "C50"
 },
 {
  "id": "V5",
  "file": "Endpoint",
  "definition": "exec (ICloseTail)",
  "old": "Ok (set_proc (set_remainder (set_transmitting s false) [])",
  "new": "Ok (set_proc (set_transmitting s false)",
  "edit": "what was not transmitted is kept over a close",
  "claim": "nothing of the past reappears",
  "breaks": "C50"
 },
 {
  "id": "V6",
  "file": "Endpoint",
  "definition": "enter (LowerClose)",
  "old": "set_pending (set_active s1 (reset (ep_active s1))) (reset (ep_pending s1)) in\n        Ok (set_payload",
  "new": "set_pending s1 (reset (ep_pending s1)) in\n        Ok (set_payload",
  "edit": "the active session of the initiator survives the close",
  "claim": "the new connection starts without a session",
  "breaks": "C50"
 },
 {
  "id": "V7",
  "file": "Endpoint",
  "definition": "enter (LowerClose)",
  "old": "[IUpClose; ICloseTail], [EvClosed]",
  "new": "[ICloseTail], [EvClosed]",
  "edit": "the upper layer is not told that the layer closed",
  "claim": "the applications are told that the layer is open again",
  "breaks": "C50"
 },
 {
  "id": "V8",
  "file": "Endpoint",
  "definition": "exec (ICloseTail)",
  "old": "(if c_via_stack C then ep_proc s else false)",
  "new": "(ep_proc s)",
  "edit": "the flag of the layer is not cleared when the connection closes",
  "claim": "nothing is lost on the new connection",
  "breaks": "C50"
 },
 {
  "id": "V9",
  "file": "Endpoint",
  "definition": "enter (LowerOpen)",
  "old": "Initiator _ => [IHandshakeRequired] | Responder _ => [] end, [EvOpened]",
  "new": "Initiator _ => if s_valid (ep_pending s) then [] else [IHandshakeRequired] | Responder _ => [] end, [EvOpened]",
  "edit": "no new handshake when a pending session exists (equivalent: closed endpoints have none)",
  "claim": "a new session is established",
  "breaks": "C50"
 },
 {
  "id": "V10",
  "file": "Endpoint",
  "definition": "on_auth_message",
  "old": "start_session_timer (set_required (activate s2) false)",
  "new": "start_session_timer (activate s2)",
  "edit": "a required handshake is not forgotten when one is completed",
  "claim": "the session timer and the flag are consistent",
  "breaks": "C50,C27"
 }
]