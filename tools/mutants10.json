[
 {
  "id": "D1",
  "file": "Endpoint",
  "definition": "enter (LowerTxReady)",
  "old": "(if complete then [IUpTxReady] else []) ++ [ITryRead; ICheckTransmit], [])",
  "new": "(if complete then [IUpTxReady] else []) ++ [ICheckTransmit], [])",
  "edit": "no attempt to read when a transmission has ended",
  "claim": "a message that arrived while the transport was busy is taken when it is ready again",
  "breaks": "C46"
 },
 {
  "id": "D2",
  "file": "Endpoint",
  "definition": "try_read_one",
  "old": "[IProcess (in_message inp); ITryRead]",
  "new": "[IProcess (in_message inp)]",
  "edit": "reads one message per notification instead of looping",
  "claim": "every complete frame is taken once the stack was notified",
  "breaks": "C46"
 },
 {
  "id": "D3",
  "file": "Endpoint",
  "definition": "start_rx",
  "old": "  | None => Ok (s1, [ITryRead], [])",
  "new": "  | None => Ok (s1, [], [])",
  "edit": "a read that finds no payload does not read on from the link layer",
  "claim": "messages behind a payload are taken after the application read it",
  "breaks": "C46"
 },
 {
  "id": "D4",
  "file": "LinkLayer",
  "definition": "ll_step (LRxReady)",
  "old": "let* (found, l') := get_frame l in Ok (l', if found then [UpRxReady] else [])",
  "new": "let* (found, l') := get_frame l in Ok (l', if found && negb (ll_processing l) then [UpRxReady] else [])",
  "edit": "no notification while the last frame is marked as being processed",
  "claim": "every complete frame is taken once the stack was notified",
  "breaks": "C46"
 },
 {
  "id": "D5",
  "file": "LinkLayer",
  "definition": "read_frame_one_iteration",
  "old": "Ok (negb found, set_rx l rest p (ll_rx_queue l))",
  "new": "Ok (negb found && negb (length rest =? 0), set_rx l rest p (ll_rx_queue l))",
  "edit": "the reading loop ends when a chunk was used up",
  "claim": "a frame split over two chunks that both arrived is taken",
  "breaks": "C46, C32"
 },
 {
  "id": "D6",
  "file": "Stack",
  "definition": "stack_exec (LowerRxReady)",
  "old": "if st_open s then through_link C true s LRxReady LowerRxReady inp else Ok (s, [], [])",
  "new": "if st_open s && negb (ep_busy (st_crypto s)) then through_link C true s LRxReady LowerRxReady inp else Ok (s, [], [])",
  "edit": "notification of data ignored while a transmission is in progress",
  "claim": "every complete frame is taken once the stack was notified and the transmission ended (harmless for the end state: the end of the transmission reads)",
  "breaks": "C46"
 },
 {
  "id": "D7",
  "file": "Endpoint",
  "definition": "try_read_one",
  "old": "  if negb (in_ready inp) then Ok (s1, [], q)\n  else match ep_payload s1 with",
  "new": "  if negb (in_ready inp) || ep_transmitting s1 then Ok (s1, [], q)\n  else match ep_payload s1 with",
  "edit": "no reading while application data is being transmitted, although the transport is ready",
  "claim": "every complete frame is taken",
  "breaks": "C46"
 }
]