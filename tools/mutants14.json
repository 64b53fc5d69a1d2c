[
 {
  "id": "T1",
  "file": "Tunnel",
  "definition": "upper_calls",
  "old": "match t_tx p with None => [StartRx] | Some _ => [] end",
  "new": "[StartRx]",
  "edit": "the stack is read even while data is being written to the client",
  "claim": "data being written does not change and none is lost",
  "breaks": "C49"
 },
 {
  "id": "T2",
  "file": "Tunnel",
  "definition": "starts_rx",
  "old": "EvUpOpen | EvUpTxReady => true",
  "new": "EvUpOpen => true",
  "edit": "the socket is not read again after a transmission",
  "claim": "everything the clients have sent comes out",
  "breaks": "C49"
 },
 {
  "id": "T3",
  "file": "Tunnel",
  "definition": "starts_rx",
  "old": "EvUpOpen | EvUpTxReady => true",
  "new": "EvUpOpen | EvUpTxReady | EvUpRxReady => true",
  "edit": "the socket is read also when data arrives",
  "claim": "a receive buffer is not reused while its data is being sent",
  "breaks": "C49"
 },
 {
  "id": "T4",
  "file": "Tunnel",
  "definition": "starts_rx",
  "old": "EvUpOpen | EvUpTxReady => true",
  "new": "EvUpTxReady => true",
  "edit": "the socket is not read when the layer opens",
  "claim": "everything the clients have sent comes out",
  "breaks": "C49"
 },
 {
  "id": "T5",
  "file": "Tunnel",
  "definition": "upper_after",
  "old": "if existsb returned ev then ep_payload (fst (d_conf d')) else None",
  "new": "None",
  "edit": "the data the stack returned is not written",
  "claim": "everything the clients have sent comes out",
  "breaks": "C49"
 },
 {
  "id": "T6",
  "file": "Tunnel",
  "definition": "station_step (st_written)",
  "old": "t_side := call_in (t_side p) StartRx (d_owed (t_side p))",
  "new": "t_side := call_in (t_side p) LowerRxReady (d_owed (t_side p))",
  "edit": "after data was written the next is not read from the stack",
  "claim": "everything the clients have sent comes out",
  "breaks": "C49"
 },
 {
  "id": "T7",
  "file": "Tunnel",
  "definition": "station_step (st_received)",
  "old": "t_in := rest; t_rx := false;",
  "new": "t_in := rest; t_rx := true;",
  "edit": "the socket is read again immediately",
  "claim": "no data of a client is refused",
  "breaks": "C49"
 },
 {
  "id": "T8",
  "file": "Tunnel",
  "definition": "station_step (st_received)",
  "old": "snd (d_conf (t_side p)) = [] -> t_rx p = true -> t_in p = data ++ rest",
  "new": "snd (d_conf (t_side p)) = [] -> t_in p = data ++ rest",
  "edit": "the socket is read all the time",
  "claim": "no data of a client is refused",
  "breaks": "C49"
 },
 {
  "id": "T9",
  "file": "Tunnel",
  "definition": "upper_calls",
  "old": "None => [StartRx] | Some _ => [] end | _ => []",
  "new": "None => [] | Some _ => [] end | _ => []",
  "edit": "the upper layer ignores that there is data",
  "claim": "everything the clients have sent comes out",
  "breaks": "C49"
 },
 {
  "id": "T10",
  "file": "Tunnel",
  "definition": "upper_after",
  "old": "t_rx := t_rx p || existsb starts_rx ev",
  "new": "t_rx := existsb starts_rx ev",
  "edit": "a read in progress is forgotten",
  "claim": "everything the clients have sent comes out",
  "breaks": "C49"
 },
 {
  "id": "T11",
  "file": "Endpoint",
  "definition": "enter (LowerTxReady)",
  "old": "let complete := ep_transmitting s0 && is_empty (ep_remainder s0) in",
  "new": "let complete := ep_transmitting s0 in",
  "edit": "the end of every part is reported as the end of the transmission",
  "claim": "a receive buffer is not reused while its data is being sent",
  "breaks": "C49"
 },
 {
  "id": "T12",
  "file": "Endpoint",
  "definition": "enter (LowerTxReady)",
  "old": "let complete := ep_transmitting s0 && is_empty (ep_remainder s0) in",
  "new": "let complete := is_empty (ep_remainder s0) in",
  "edit": "the end of a transmission is reported also when nothing of the application was transmitted",
  "claim": "no data of a client is refused",
  "breaks": "C49,C33"
 },
 {
  "id": "T13",
  "file": "Tunnel",
  "definition": "station_step (st_written)",
  "old": "t_tx := None; t_out := t_out p ++ bytes",
  "new": "t_tx := None; t_out := t_out p",
  "edit": "the data is not written to the socket",
  "claim": "everything the clients have sent comes out",
  "breaks": "C49"
 },
 {
  "id": "T14",
  "file": "Tunnel",
  "definition": "station_step (st_received)",
  "old": "t_tx := t_tx p; t_out := t_out p; t_sent := t_sent p |} now\n(** AsioTcpSocketWrapper.h:83-98",
  "new": "t_tx := None; t_out := t_out p; t_sent := t_sent p |} now\n(** AsioTcpSocketWrapper.h:83-98",
  "edit": "a write in progress is forgotten when data arrives from the client",
  "claim": "everything the clients have sent comes out",
  "breaks": "C49"
 },
 {
  "id": "T15",
  "file": "Tunnel",
  "definition": "station_step (st_received)",
  "old": "call_in (t_side p) (StartTx data) (d_owed (t_side p)); t_in := rest",
  "new": "call_in (t_side p) (StartTx data) (d_owed (t_side p)); t_in := skipn 1 rest",
  "edit": "a byte of the client is lost between two reads",
  "claim": "what comes out is what went in",
  "breaks": "C49"
 }
]