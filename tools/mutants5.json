[
 {
  "id": "px-1",
  "file": "Proxy",
  "definition": "try_close_socket",
  "old": "if is_open x o then Good (observe (PClosed id x) (put id (set_open x false o) s)) else Good s",
  "new": "if is_open x o then Good (observe (PClosed id x) s) else Good s",
  "edit": "the socket stays open",
  "claim": "C40",
  "breaks": "a removed session can start operations"
 },
 {
  "id": "px-2",
  "file": "Proxy",
  "definition": "start_operation",
  "old": "if negb (is_open x o) || is_active x d o then Good s",
  "new": "if negb (is_open x o) then Good s",
  "edit": "a second read is started while one is pending",
  "claim": "C40",
  "breaks": "one operation at a time per socket and direction"
 },
 {
  "id": "px-3",
  "file": "Proxy",
  "definition": "start_operation",
  "old": "if negb (is_open x o) || is_active x d o then Good s",
  "new": "if is_active x d o then Good s",
  "edit": "an operation is started on a closed socket",
  "claim": "C40",
  "breaks": "a removed session starts operations"
 },
 {
  "id": "px-4",
  "file": "Proxy",
  "definition": "start_operation",
  "old": "(put id (set_active x d true o) s)",
  "new": "(put id o s)",
  "edit": "the active flag is not set",
  "claim": "C40",
  "breaks": "a session is destroyed while operations are pending"
 },
 {
  "id": "px-5",
  "file": "Proxy",
  "definition": "is_shutdown",
  "old": "(upper_rx o || upper_tx o)",
  "new": "upper_rx o",
  "edit": "pending writes to the application are not waited for",
  "claim": "C40",
  "breaks": "a completion reaches a destroyed session"
 },
 {
  "id": "px-6",
  "file": "Proxy",
  "definition": "is_shutdown",
  "old": "(lower_rx o || lower_tx o)",
  "new": "lower_rx o",
  "edit": "pending writes to the peer are not waited for",
  "claim": "C40",
  "breaks": "a completion reaches a destroyed session"
 },
 {
  "id": "px-7",
  "file": "Proxy",
  "definition": "check_for_close",
  "old": "if is_shutdown o then Good s else Good (set_posted (posted s ++ [id]) s)",
  "new": "if is_shutdown o then Good (set_posted (posted s ++ [id]) s) else Good s",
  "edit": "condition inverted",
  "claim": "C40",
  "breaks": "a session is destroyed while operations are pending"
 },
 {
  "id": "px-8",
  "file": "Proxy",
  "definition": "close_upper",
  "old": "run s1 <- try_close_socket id Upper (put id (set_app_on false o) s);\n      error_handler id s1",
  "new": "error_handler id (put id (set_app_on false o) s)",
  "edit": "the application's connection is not closed",
  "claim": "C40",
  "breaks": "an error closes both connections"
 },
 {
  "id": "px-9",
  "file": "Proxy",
  "definition": "close_upper",
  "old": "run s1 <- try_close_socket id Upper (put id (set_app_on false o) s);\n      error_handler id s1",
  "new": "try_close_socket id Upper (put id (set_app_on false o) s)",
  "edit": "the error handler is not called",
  "claim": "C40",
  "breaks": "a failed session is removed"
 },
 {
  "id": "px-10",
  "file": "Proxy",
  "definition": "shutdown",
  "old": "run s1 <- try_close_socket id Lower s;\n  run s2 <- close_stack error_handler id s1;",
  "new": "run s2 <- close_stack error_handler id s;",
  "edit": "the connection to the peer is not closed",
  "claim": "C40",
  "breaks": "an error closes both connections"
 },
 {
  "id": "px-11",
  "file": "Proxy",
  "definition": "shutdown",
  "old": "run s2 <- close_stack error_handler id s1;\n  check_for_close id s2",
  "new": "close_stack error_handler id s1",
  "edit": "no check is posted",
  "claim": "C40",
  "breaks": "a session is destroyed while operations are pending"
 },
 {
  "id": "px-12",
  "file": "Proxy",
  "definition": "on_session_error",
  "old": "let s1 := set_locals (id :: locals s) s in\n        let s2",
  "new": "let s1 := s in\n        let s2",
  "edit": "no reference is held while shutting down",
  "claim": "C40",
  "breaks": "use after free"
 },
 {
  "id": "px-13",
  "file": "Proxy",
  "definition": "on_session_error",
  "old": "observe (PRemoved id) (set_sessions (remove1 id (sessions s1)) s1)",
  "new": "s1",
  "edit": "the session is not erased",
  "claim": "C40",
  "breaks": "a failed session is removed; nesting"
 },
 {
  "id": "px-14",
  "file": "Proxy",
  "definition": "on_session_error",
  "old": "if mem id (sessions s) then",
  "new": "if mem id (locals s) then",
  "edit": "wrong lookup",
  "claim": "C40",
  "breaks": "a failed session is removed"
 },
 {
  "id": "px-15",
  "file": "Proxy",
  "definition": "make_room",
  "old": "(N.of_nat (length (sessions s)) =? max_sessions s)%N",
  "new": "(max_sessions s <? N.of_nat (length (sessions s)))%N",
  "edit": "off by one",
  "claim": "C40",
  "breaks": "the limit"
 },
 {
  "id": "px-16",
  "file": "Proxy",
  "definition": "make_room",
  "old": "(N.of_nat (length (sessions s)) =? max_sessions s)%N",
  "new": "(N.of_nat (length (sessions s)) + 1 =? max_sessions s)%N",
  "edit": "off by one",
  "claim": "C40",
  "breaks": "a session is removed although there is room"
 },
 {
  "id": "px-17",
  "file": "Proxy",
  "definition": "make_room",
  "old": "| oldest :: _ =>",
  "new": "| first :: others => let oldest := last others first in",
  "edit": "the newest is removed",
  "claim": "C40",
  "breaks": "the oldest session is replaced"
 },
 {
  "id": "px-18",
  "file": "Proxy",
  "definition": "make_room",
  "old": "Good (release oldest (observe (PRemoved oldest) (set_sessions (remove1 oldest (sessions s1)) s1)))",
  "new": "Good s1",
  "edit": "the session is shut down but not erased",
  "claim": "C40",
  "breaks": "the limit"
 },
 {
  "id": "px-19",
  "file": "Proxy",
  "definition": "connected",
  "old": "let s2 := set_next (id + 1)%N s1 in",
  "new": "let s2 := s1 in",
  "edit": "the number is not advanced",
  "claim": "C40",
  "breaks": "identities are distinct"
 },
 {
  "id": "px-20",
  "file": "Proxy",
  "definition": "connected",
  "old": "run s4 <- start_operation id Lower Rx s3;\n  with_session id s4",
  "new": "let s4 := s3 in\n  with_session id s4",
  "edit": "nothing is read from the peer",
  "claim": "C40",
  "breaks": "(the session is dead, but no claim of C40 is about progress)"
 },
 {
  "id": "px-21",
  "file": "Proxy",
  "definition": "connected",
  "old": "(set_sessions (insert id (sessions s2))",
  "new": "(set_sessions (id :: sessions s2)",
  "edit": "new sessions are put first",
  "claim": "C40",
  "breaks": "the oldest session is replaced"
 },
 {
  "id": "px-22",
  "file": "Proxy",
  "definition": "completed",
  "old": "let s1 := put id (set_active x d false o) s in",
  "new": "let s1 := s in",
  "edit": "the active flag is not cleared",
  "claim": "C40",
  "breaks": "a removed session is destroyed in the end"
 },
 {
  "id": "px-23",
  "file": "Proxy",
  "definition": "completed",
  "old": "else if is_open x o then",
  "new": "else if true then",
  "edit": "errors of closed sockets are handled too",
  "claim": "C40",
  "breaks": "(cancelled operations report errors again)"
 },
 {
  "id": "px-24",
  "file": "Proxy",
  "definition": "completed",
  "old": "| Lower => close_stack error_handler id s2 ",
  "new": "| Lower => error_handler id s2 ",
  "edit": "the session is removed without telling the stack first",
  "claim": "C40",
  "breaks": "(this repairs two defects: the refutations must fail)"
 },
 {
  "id": "px-25",
  "file": "Proxy",
  "definition": "completed",
  "old": "| Upper => error_handler id s2 ",
  "new": "| Upper => close_stack error_handler id s2 ",
  "edit": "errors of the application side go to the stack",
  "claim": "C40",
  "breaks": "an error of the application side removes the session"
 },
 {
  "id": "px-26",
  "file": "Proxy",
  "definition": "completed",
  "old": "run s2 <- try_close_socket id x s1;\n      match",
  "new": "let s2 := s1 in\n      match",
  "edit": "the failed socket is not closed",
  "claim": "C40",
  "breaks": "an error closes both connections"
 },
 {
  "id": "px-27",
  "file": "Proxy",
  "definition": "step",
  "old": "| AcceptFailed => Good (set_accepting false s)",
  "new": "| AcceptFailed => Good s",
  "edit": "the listener goes on after an error",
  "claim": "C40",
  "breaks": "(this repairs a defect: the refutation must fail)"
 },
 {
  "id": "px-28",
  "file": "Proxy",
  "definition": "step",
  "old": "if stack_on o then close_upper error_handler id s else Good s",
  "new": "Good s",
  "edit": "the stack does not close the upper layer",
  "claim": "C40",
  "breaks": "an error closes both connections"
 },
 {
  "id": "px-29",
  "file": "Proxy",
  "definition": "step",
  "old": "let s1 := set_locals (id :: locals s) (set_posted (remove1 id (posted s)) s) in",
  "new": "let s1 := set_locals (id :: locals s) s in",
  "edit": "a posted check stays",
  "claim": "C40",
  "breaks": "a removed session is destroyed in the end"
 },
 {
  "id": "px-30",
  "file": "Proxy",
  "definition": "step",
  "old": "Good (release id (set_locals (remove1 id (locals s2)) s2))\n      else Good s\n  end.",
  "new": "Good (set_locals (remove1 id (locals s2)) s2)\n      else Good s\n  end.",
  "edit": "the reference is never released",
  "claim": "C40",
  "breaks": "a removed session is destroyed in the end"
 },
 {
  "id": "px-31",
  "file": "Proxy",
  "definition": "new_proxy",
  "old": "if (max =? 0)%N then 1%N else max",
  "new": "max",
  "edit": "a configured limit of zero is used",
  "claim": "C40",
  "breaks": "(the map is empty when the first session arrives: undefined)"
 },
 {
  "id": "px-32",
  "file": "Proxy",
  "definition": "new_proxy",
  "old": "if (max =? 0)%N then 1%N else max",
  "new": "if (max =? 0)%N then 1%N else (max + 1)%N",
  "edit": "limit off by one",
  "claim": "C40",
  "breaks": "the limit"
 },
 {
  "id": "px-33",
  "file": "Proxy",
  "definition": "make_room",
  "old": "run s1 <- shutdown error_handler oldest s;",
  "new": "let s1 := s in",
  "edit": "the evicted session is not shut down",
  "claim": "C40",
  "breaks": "the protocol side of the evicted session is closed"
 },
 {
  "id": "px-34",
  "file": "Proxy",
  "definition": "release",
  "old": "mem id (sessions s) || mem id (posted s) || mem id (locals s)",
  "new": "mem id (sessions s) || mem id (locals s)",
  "edit": "posted checks do not keep the session",
  "claim": "C40",
  "breaks": "a completion reaches a destroyed session"
 }
]