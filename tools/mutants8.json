[
 {
  "id": "udp-1",
  "file": "UdpProxy",
  "definition": "u_try_close",
  "old": "so_open := false; so_rx := so_rx k",
  "new": "so_open := so_open k; so_rx := so_rx k",
  "edit": "closing does not close the socket",
  "claim": "C45",
  "breaks": "ports of a replaced session stay bound"
 },
 {
  "id": "udp-2",
  "file": "UdpProxy",
  "definition": "closed_sock",
  "old": "so_rx_open := false; so_tx_open := false |}.\n\n(** AsioUdp",
  "new": "so_rx_open := so_rx_open k; so_tx_open := so_tx_open k |}.\n\n(** AsioUdp",
  "edit": "closing keeps is_rx_open/is_tx_open",
  "claim": "C45",
  "breaks": "cancelled operations of a replaced session run the handler again"
 },
 {
  "id": "udp-3",
  "file": "UdpProxy",
  "definition": "u_completed",
  "old": "store id (set_sock x (set_seen d k) o) s)",
  "new": "store id (set_sock x k o) s)",
  "edit": "success does not set is_rx_open/is_tx_open",
  "claim": "C45",
  "breaks": "failures never restart"
 },
 {
  "id": "udp-4",
  "file": "UdpProxy",
  "definition": "u_check",
  "old": "if idle o then UGood s else UGood (with_posted",
  "new": "if negb (idle o) then UGood s else UGood (with_posted",
  "edit": "check inverted",
  "claim": "C45",
  "breaks": "replaced sessions destroyed with pending operations"
 },
 {
  "id": "udp-5",
  "file": "UdpProxy",
  "definition": "u_session_error",
  "old": "          start_session s1",
  "new": "          UGood s1",
  "edit": "handler does not start a session",
  "claim": "C45",
  "breaks": "no restart"
 },
 {
  "id": "udp-6",
  "file": "UdpProxy",
  "definition": "u_close_upper",
  "old": "go s1 <- u_try_close id Upper (store id (set_uapp false o) s);\n      handler s1",
  "new": "handler (store id (set_uapp false o) s)",
  "edit": "upper layer does not close its socket",
  "claim": "C45",
  "breaks": "upper port stays bound"
 },
 {
  "id": "udp-7",
  "file": "UdpProxy",
  "definition": "u_close_upper",
  "old": "go s1 <- u_try_close id Upper (store id (set_uapp false o) s);\n      handler s1",
  "new": "u_try_close id Upper (store id (set_uapp false o) s)",
  "edit": "upper layer does not call the handler",
  "claim": "C45",
  "breaks": "no restart when the stack closes"
 },
 {
  "id": "udp-8",
  "file": "UdpProxy",
  "definition": "u_start",
  "old": "if active d (sock_of x o) then UGood s\n    else",
  "new": "if active d (sock_of x o) && false then UGood s\n    else",
  "edit": "operation started although one is active",
  "claim": "C45",
  "breaks": "two operations of a kind pending"
 },
 {
  "id": "udp-9",
  "file": "UdpProxy",
  "definition": "u_completed",
  "old": "      if seen d k then",
  "new": "      if true then",
  "edit": "failures not gated",
  "claim": "C45",
  "breaks": "first failure restarts"
 },
 {
  "id": "udp-10",
  "file": "UdpProxy",
  "definition": "ustep",
  "old": "(with_posted (remove1 id (uposted s)) s)",
  "new": "(with_posted (uposted s) s)",
  "edit": "posted handler stays",
  "claim": "C45",
  "breaks": "checks never end"
 },
 {
  "id": "udp-11",
  "file": "UdpProxy",
  "definition": "drop",
  "old": "|| mem id (uposted s) ||",
  "new": "||",
  "edit": "destroyed although a posted handler refers to it",
  "claim": "C45",
  "breaks": "use after free"
 },
 {
  "id": "udp-12",
  "file": "UdpProxy",
  "definition": "start_session",
  "old": "match old with Some c => drop c s2 | None => s2 end",
  "new": "s2",
  "edit": "replaced session never released",
  "claim": "C45",
  "breaks": "a session without pending operations is never destroyed"
 },
 {
  "id": "udp-13",
  "file": "UdpProxy",
  "definition": "start_session",
  "old": "(with_cur (Some id) (store id",
  "new": "(with_cur old (store id",
  "edit": "current session not replaced",
  "claim": "C45",
  "breaks": "second failure acts on the old session"
 },
 {
  "id": "udp-14",
  "file": "UdpProxy",
  "definition": "start_session",
  "old": "go s4 <- u_start id Lower Rx s3;",
  "new": "go s4 <- u_start id Upper Rx s3;",
  "edit": "listens on the wrong side",
  "claim": "C45",
  "breaks": "new session deaf on the protected side"
 },
 {
  "id": "udp-15",
  "file": "UdpProxy",
  "definition": "u_completed",
  "old": "| Lower => u_close_stack handler id s1    (* AsioLowerLayer.h:71-74 *)\n        | Upper => handler s1 ",
  "new": "| Upper => u_close_stack handler id s1    (* AsioLowerLayer.h:71-74 *)\n        | Lower => handler s1 ",
  "edit": "error handlers of the sides swapped",
  "claim": "C45",
  "breaks": "failures on the raw side restart, on the secure side fail"
 },
 {
  "id": "udp-16",
  "file": "UdpProxy",
  "definition": "u_shutdown",
  "old": "go s1 <- u_try_close id Lower s;",
  "new": "go s1 <- UGood s;",
  "edit": "shutdown does not close the protected socket",
  "claim": "C45",
  "breaks": "port in use at restart"
 },
 {
  "id": "udp-17",
  "file": "UdpProxy",
  "definition": "u_shutdown",
  "old": "go s2 <- u_close_stack handler id s1;\n  u_check id s2",
  "new": "u_close_stack handler id s1",
  "edit": "no check after shutdown",
  "claim": "C45",
  "breaks": "replaced session destroyed with pending operations"
 },
 {
  "id": "udp-18",
  "file": "UdpProxy",
  "definition": "start_session",
  "old": "if port_taken Lower s || port_taken Upper s then UBad PortInUse",
  "new": "if port_taken Lower s && port_taken Upper s then UBad PortInUse",
  "edit": "bind succeeds if one port is free",
  "claim": "C45",
  "breaks": "port bound twice"
 },
 {
  "id": "udp-19",
  "file": "UdpProxy",
  "definition": "ustep",
  "old": "if ustack o && negb (uapp o) then u_start id Upper Rx",
  "new": "if negb (uapp o) then u_start id Upper Rx",
  "edit": "upper layer opened on a closed stack",
  "claim": "C45",
  "breaks": "a dead session comes up"
 },
 {
  "id": "udp-20",
  "file": "UdpProxy",
  "definition": "u_completed",
  "old": "let k := set_act d false (sock_of x o) in",
  "new": "let k := sock_of x o in",
  "edit": "is_active not cleared",
  "claim": "C45",
  "breaks": "no second operation of the kind"
 }
]