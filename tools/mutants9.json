[
 {
  "id": "S1",
  "file": "Stack",
  "definition": "stack_exec (LowerClose)",
  "old": "through_link C false s LClose LowerClose inp",
  "new": "through_link C true s LClose LowerClose inp",
  "edit": "the stack object stays open when the transport closes",
  "claim": "messages are taken only while the connection is open / the stack tracks the transport",
  "breaks": "C46"
 },
 {
  "id": "S2",
  "file": "Stack",
  "definition": "stack_exec (LowerRxReady)",
  "old": "if st_open s then through_link C true s LRxReady LowerRxReady inp else Ok (s, [], [])",
  "new": "through_link C (st_open s) s LRxReady LowerRxReady inp",
  "edit": "received data is processed although the stack is closed",
  "claim": "messages only while open (guarded again by the layers below)",
  "breaks": "C46"
 },
 {
  "id": "S3",
  "file": "Stack",
  "definition": "through_link",
  "old": "  | [] => Ok ({| st_open := open; st_link := l; st_crypto := st_crypto s |}, [], [])\n  | _ :: _ => crypto_step",
  "new": "  | [] => crypto_step C open l (st_crypto s) (ICall c) inp\n  | _ :: _ => crypto_step",
  "edit": "the crypto layer is notified although there is no complete frame",
  "claim": "the crypto layer is called only when the link layer has a frame",
  "breaks": "C46"
 },
 {
  "id": "S4",
  "file": "Stack",
  "definition": "stack_exec (ITryRead)",
  "old": "crypto_step C (st_open s) l (st_crypto s) ITryRead (with_message inp m)",
  "new": "crypto_step C (st_open s) (st_link s) (st_crypto s) ITryRead (with_message inp m)",
  "edit": "the link layer's state after a read is dropped: the same message is read again",
  "claim": "messages are payloads of successive frames",
  "breaks": "C46"
 },
 {
  "id": "S5",
  "file": "Stack",
  "definition": "stack_exec (ITryRead)",
  "old": "crypto_step C (st_open s) l (st_crypto s) ITryRead (with_message inp m)",
  "new": "crypto_step C (st_open s) l (st_crypto s) ITryRead inp",
  "edit": "the crypto layer reads from the transport instead of the link layer",
  "claim": "messages are payloads of frames",
  "breaks": "C46"
 },
 {
  "id": "S6",
  "file": "Stack",
  "definition": "arrive_link",
  "old": "ll_rx_queue := ll_rx_queue l ++ [chunk]",
  "new": "ll_rx_queue := chunk :: ll_rx_queue l",
  "edit": "a later chunk overtakes an earlier one",
  "claim": "messages are found in the bytes in the order received",
  "breaks": "C46"
 },
 {
  "id": "S7",
  "file": "Stack",
  "definition": "arrive_link",
  "old": "ll_rx_queue := ll_rx_queue l ++ [chunk]",
  "new": "ll_rx_queue := [chunk]",
  "edit": "a chunk that was not read is overwritten",
  "claim": "all bytes received are processed",
  "breaks": "C46"
 },
 {
  "id": "S8",
  "file": "Stack",
  "definition": "stack_conf",
  "old": "e_kind := FLink a",
  "new": "e_kind := FLink {| a_destination := a_source a; a_source := a_destination a |}",
  "edit": "source and destination swapped in the frames sent",
  "claim": "frames carry the configured addresses",
  "breaks": "C46"
 },
 {
  "id": "S9",
  "file": "Stack",
  "definition": "new_stack",
  "old": "st_link := stack_link a",
  "new": "st_link := new_link_layer (a_destination a) (a_source a)",
  "edit": "addresses of the link layer swapped: it takes frames for the peer",
  "claim": "messages taken are for this station",
  "breaks": "C46"
 },
 {
  "id": "S10",
  "file": "Stack",
  "definition": "stack_exec (LowerTxReady)",
  "old": "st_crypto := set_busy (st_crypto s) false |}, [], [])",
  "new": "st_crypto := set_busy (st_crypto s) true |}, [], [])",
  "edit": "the transport is left busy when it completes while closed",
  "claim": "one transmission at a time / the transport is ready again",
  "breaks": "C46"
 },
 {
  "id": "S11",
  "file": "Stack",
  "definition": "stack_exec (LowerOpen)",
  "old": "if st_open s then Ok (s, [], []) else through_link C true s LOpen LowerOpen inp",
  "new": "through_link C true s LClose LowerOpen inp",
  "edit": "opening the stack closes the link layer",
  "claim": "the layers are open together",
  "breaks": "C46"
 },
 {
  "id": "S12",
  "file": "Stack",
  "definition": "stack_exec (default)",
  "old": "| _ => crypto_step C (st_open s) (st_link s) (st_crypto s) i (with_message inp [])",
  "new": "| _ => crypto_step C (st_open s) (stack_link {| a_destination := 0; a_source := 0 |}) (st_crypto s) i (with_message inp [])",
  "edit": "an application call resets the link layer",
  "claim": "messages are taken from all bytes received",
  "breaks": "C46"
 },
 {
  "id": "S13",
  "file": "Stack",
  "definition": "stack_exec (ITryRead)",
  "old": "if reads_link (st_crypto s) inp then",
  "new": "if true then",
  "edit": "a message is taken from the link layer although the crypto layer cannot take one, and is lost",
  "claim": "messages taken are acted on, in order, from the first on",
  "breaks": "C46"
 },
 {
  "id": "S14",
  "file": "LinkLayer",
  "definition": "ll_step (LClose)",
  "old": "Ok (ll_discard (set_open l false), [UpClose])",
  "new": "Ok (ll_discard l, [UpClose])",
  "edit": "the link layer stays open on close",
  "claim": "the layers are open together",
  "breaks": "C46"
 },
 {
  "id": "S15",
  "file": "Stack",
  "definition": "stack_conf",
  "old": "e_max_payload := max_config_payload_size",
  "new": "e_max_payload := max_config_payload_size + 4",
  "edit": "frames with larger payloads than a receiver takes are sent",
  "claim": "payload of at most 4092 bytes",
  "breaks": "C46"
 },
 {
  "id": "S16",
  "file": "Stack",
  "definition": "reads_link",
  "old": "in_ready inp && match ep_payload s with None => true | Some _ => false end",
  "new": "in_ready inp",
  "edit": "a message is taken while the last payload is unread, and is lost",
  "claim": "messages in order from the first on",
  "breaks": "C46"
 }
]