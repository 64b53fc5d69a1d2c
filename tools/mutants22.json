[
 {
  "id": "sta-1",
  "file": "Statistics",
  "definition": "bump",
  "old": "| st_ttl_expiration => Build_counters i n a (increment t) o u",
  "new": "| st_ttl_expiration => Build_counters i n a t (increment o) u",
  "edit": "an expired message increments the nonce counter",
  "claim": "each counter counts its own reason",
  "breaks": "C57"
 },
 {
  "id": "sta-2",
  "file": "Statistics",
  "definition": "increment",
  "old": "u64 (v + 1)",
  "new": "u32 (v + 1)",
  "edit": "counters of 32 bits",
  "claim": "counters have 64 bits",
  "breaks": "C57"
 },
 {
  "id": "sta-3",
  "file": "Statistics",
  "definition": "sessions_call",
  "old": "Ok (reset_both s, n, AVoid)",
  "new": "Ok (reset_both s, new_counters, AVoid)",
  "edit": "resetting the sessions clears the counters",
  "claim": "resetting keeps the counters",
  "breaks": "C57"
 },
 {
  "id": "sta-4",
  "file": "Statistics",
  "definition": "sessions_call",
  "old": "Ok (activate_pending s, n, AVoid)",
  "new": "Ok (activate_pending s, bumps n [st_init], AVoid)",
  "edit": "activating the pending session counts as an initialization",
  "claim": "exchanging sessions changes no counter",
  "breaks": "C57"
 },
 {
  "id": "sta-5",
  "file": "Statistics",
  "definition": "sessions_call",
  "old": "let* (r, rest, s') := format_session_data E (get s a) now clear in Ok (put s a s', n, AFrame r rest)",
  "new": "let* (r, rest, s') := format_session_data E (get s a) now clear in Ok (put s a s', bumps n [st_success], AFrame r rest)",
  "edit": "sending a message counts as a success",
  "claim": "only received messages are successes",
  "breaks": "C57"
 },
 {
  "id": "sta-6",
  "file": "Statistics",
  "definition": "sessions_call",
  "old": "let* (r, s', st) := validate_session_auth E (get s a) m now cap in Ok (put s a s', bumps n st, ARead r)",
  "new": "let* (r, s', st) := validate_session_auth E (get s a) m now cap in Ok (put s a s', n, ARead r)",
  "edit": "the authentication message is not counted",
  "claim": "every session message is counted",
  "breaks": "C57"
 },
 {
  "id": "sta-7",
  "file": "Statistics",
  "definition": "process_stats",
  "old": "| Ok (inl _, _) => [st_init]",
  "new": "| Ok (inl _, _) => []",
  "edit": "the responder does not count the sessions it initializes",
  "claim": "initialized sessions = keys derived",
  "breaks": "C57"
 },
 {
  "id": "sta-8",
  "file": "Statistics",
  "definition": "process_stats",
  "old": "| Ok (true, _, _) => [st_init]",
  "new": "| Ok (_, _, _) => [st_init]",
  "edit": "the initiator counts a session for every reply, even a refused one",
  "claim": "initialized sessions = keys derived",
  "breaks": "C57"
 },
 {
  "id": "sta-9",
  "file": "Statistics",
  "definition": "process_stats",
  "old": "else counted (validate_session_data (c_env C) (ep_active s) msg (in_now inp) (c_payload_size C))",
  "new": "else counted (validate_session_data (c_env C) (ep_pending s) msg (in_now inp) (c_payload_size C))",
  "edit": "the responder counts data against the pending session",
  "claim": "successes are the messages let through",
  "breaks": "C57",
  "nth": 1
 },
 {
  "id": "sta-10",
  "file": "Statistics",
  "definition": "process_stats",
  "old": "then if negb (s_valid (ep_pending s)) then []\n",
  "new": "then if negb (s_valid (ep_pending s)) then [st_success]\n",
  "edit": "an authentication without a pending session counts as a success",
  "claim": "successes are the messages let through",
  "breaks": "C57"
 },
 {
  "id": "sta-11",
  "file": "Statistics",
  "definition": "counting",
  "old": "(bumps n (step_stats C k l))",
  "new": "(bumps n (step_stats C k1 l))",
  "edit": "the counters are taken from the state after the step",
  "claim": "the counters agree with what happened",
  "breaks": "C57"
 },
 {
  "id": "sta-12",
  "file": "Statistics",
  "definition": "bump",
  "old": "| st_success => Build_counters i n a t o (increment u)",
  "new": "| st_success => Build_counters i n a t o u",
  "edit": "successes are not counted",
  "claim": "num_success",
  "breaks": "C57"
 }
]