(** * UdpProxy: model of the session management of the UDP proxy

    cpp/exe/proxy/src/udp/{UdpProxySession.cpp,AsioUdpSocketWrapper.h}, Session.h, AsioLowerLayer.h, AsioUpperLayer.h,
    and, of the library, the notifications that open and close layers (stack/IUpperLayer.h, stack/LinkCryptoStack.h,
    crypto/CryptoLayer.cpp:86-96 and 186-205).

    As in Proxy.v the executor runs one handler at a time, and what the protocol stack of a session does when data
    arrives, when a transmission ends or when a timer expires is left open: the operations it starts and the opening and
    closing of the upper layer are events of the environment.  The open flags of the layers inside a stack are one flag.

    A session lives as long as the proxy or a posted check refers to it.  Using a member of a destroyed session is
    undefined and ends the run.  Binding a port that another socket of this process holds throws: nothing between the
    handler and main() catches the exception (main.cpp:40-45 ends the process), so this ends the run too.

    Not modelled: the data, logging; binds that fail for another reason. *)
From Verif Require Import Base Proxy.

(** AsioUdpSocketWrapper.h:129-135: socket.is_open(), is_rx_active, is_tx_active, is_rx_open, is_tx_open *)
Record sock := { so_open : bool; so_rx : bool; so_tx : bool; so_rx_open : bool; so_tx_open : bool }.

(** Session.h:86-93, IUpperLayer.h:125: the two sockets, is_open_flag of the stack, is_open_flag of the AsioUpperLayer *)
Record usess := { lo : sock; up : sock; ustack : bool; uapp : bool }.

(** What can be observed: a session was started; its sockets were bound and closed; its stack opened the upper layer; an operation
    ended; a session was destroyed. *)
Inductive uev := UBound (id : N) (x : side) | UStarted (id : N) | UUp (id : N) | UDone (id : N) (x : side) (d : way) (ok : bool)
  | UClosed (id : N) (x : side) | UDestroyed (id : N).

(** UdpProxySession.h:34-42.  The sessions are numbered in the order of their creation (all have the identifier 0 in the code).
    [upend] are the asynchronous operations the sockets have not completed, [uposted] the handlers posted by check_for_close,
    [uheld] the references held by a posted handler that is running. *)
Record udp := { uobj : N -> option usess; ucur : option N; uposted : list N; uheld : list N;
                upend : list (N * side * way); unext : N; ulog : list uev }.

Inductive uwhy := PortInUse | UseAfterFree | NoSession | NestedTooDeep.
Inductive ures := UGood (s : udp) | UBad (w : uwhy).
Definition ubind (r : ures) (f : udp -> ures) : ures := match r with UGood s => f s | UBad w => UBad w end.
Notation "'go' s <- r ; k" := (ubind r (fun s => k)) (at level 200, s name, r at level 100, k at level 200).

Definition upd (f : N -> option usess) (id : N) (v : option usess) : N -> option usess := fun j => if (j =? id)%N then v else f j.
Definition with_obj v s := {| uobj := v; ucur := ucur s; uposted := uposted s; uheld := uheld s; upend := upend s; unext := unext s; ulog := ulog s |}.
Definition with_cur v s := {| uobj := uobj s; ucur := v; uposted := uposted s; uheld := uheld s; upend := upend s; unext := unext s; ulog := ulog s |}.
Definition with_posted v s := {| uobj := uobj s; ucur := ucur s; uposted := v; uheld := uheld s; upend := upend s; unext := unext s; ulog := ulog s |}.
Definition with_held v s := {| uobj := uobj s; ucur := ucur s; uposted := uposted s; uheld := v; upend := upend s; unext := unext s; ulog := ulog s |}.
Definition with_pend v s := {| uobj := uobj s; ucur := ucur s; uposted := uposted s; uheld := uheld s; upend := v; unext := unext s; ulog := ulog s |}.
Definition with_next v s := {| uobj := uobj s; ucur := ucur s; uposted := uposted s; uheld := uheld s; upend := upend s; unext := v; ulog := ulog s |}.
Definition say e s := {| uobj := uobj s; ucur := ucur s; uposted := uposted s; uheld := uheld s; upend := upend s; unext := unext s; ulog := ulog s ++ [e] |}.

(** The use of a member of a session *)
Definition member (id : N) (s : udp) (k : usess -> ures) : ures := match uobj s id with Some o => k o | None => UBad UseAfterFree end.
Definition store (id : N) (o : usess) (s : udp) : udp := with_obj (upd (uobj s) id (Some o)) s.

(** The end of the lifetime of a shared_ptr to a session *)
Definition drop (id : N) (s : udp) : udp :=
  if match ucur s with Some c => (c =? id)%N | None => false end || mem id (uposted s) || mem id (uheld s) then s
  else say (UDestroyed id) (with_obj (upd (uobj s) id None) s).

Definition sock_of (x : side) (o : usess) : sock := match x with Lower => lo o | Upper => up o end.
Definition set_sock (x : side) (k : sock) (o : usess) : usess :=
  match x with Lower => {| lo := k; up := up o; ustack := ustack o; uapp := uapp o |} | Upper => {| lo := lo o; up := k; ustack := ustack o; uapp := uapp o |} end.
Definition set_ustack (b : bool) (o : usess) : usess := {| lo := lo o; up := up o; ustack := b; uapp := uapp o |}.
Definition set_uapp (b : bool) (o : usess) : usess := {| lo := lo o; up := up o; ustack := ustack o; uapp := b |}.
Definition active (d : way) (k : sock) : bool := match d with Rx => so_rx k | Tx => so_tx k end.
Definition set_act (d : way) (b : bool) (k : sock) : sock :=
  match d with
  | Rx => {| so_open := so_open k; so_rx := b; so_tx := so_tx k; so_rx_open := so_rx_open k; so_tx_open := so_tx_open k |}
  | Tx => {| so_open := so_open k; so_rx := so_rx k; so_tx := b; so_rx_open := so_rx_open k; so_tx_open := so_tx_open k |}
  end.
Definition seen (d : way) (k : sock) : bool := match d with Rx => so_rx_open k | Tx => so_tx_open k end.
Definition set_seen (d : way) (k : sock) : sock :=
  match d with
  | Rx => {| so_open := so_open k; so_rx := so_rx k; so_tx := so_tx k; so_rx_open := true; so_tx_open := so_tx_open k |}
  | Tx => {| so_open := so_open k; so_rx := so_rx k; so_tx := so_tx k; so_rx_open := so_rx_open k; so_tx_open := true |}
  end.
Definition closed_sock (k : sock) : sock := {| so_open := false; so_rx := so_rx k; so_tx := so_tx k; so_rx_open := false; so_tx_open := false |}.

(** AsioUdpSocketWrapper.h:33-46 try_close_socket.  Pending operations complete later. *)
Definition u_try_close (id : N) (x : side) (s : udp) : ures :=
  member id s (fun o =>
    if so_open (sock_of x o) then UGood (say (UClosed id x) (store id (set_sock x (closed_sock (sock_of x o)) o) s)) else UGood s).

(** AsioUdpSocketWrapper.h:48-81 start_rx_from_socket and 83-111 start_tx_to_socket: whether the socket is open does not matter *)
Definition u_start (id : N) (x : side) (d : way) (s : udp) : ures :=
  member id s (fun o =>
    if active d (sock_of x o) then UGood s
    else UGood (with_pend (upend s ++ [(id, x, d)]) (store id (set_sock x (set_act d true (sock_of x o)) o) s))).

(** Session.h:81-84 is_shutdown, IAsioSocketWrapper.h:20-23 *)
Definition idle (o : usess) : bool := negb ((so_rx (lo o) || so_tx (lo o)) || (so_rx (up o) || so_tx (up o))).

(** Session.h:72-79 check_for_close *)
Definition u_check (id : N) (s : udp) : ures :=
  member id s (fun o => if idle o then UGood s else UGood (with_posted (uposted s ++ [id]) s)).

(** AsioUpperLayer.h:39-43, called through IUpperLayer.h:43-52 *)
Definition u_close_upper (handler : udp -> ures) (id : N) (s : udp) : ures :=
  member id s (fun o =>
    if uapp o then
      go s1 <- u_try_close id Upper (store id (set_uapp false o) s);
      handler s1
    else UGood s).

(** IUpperLayer.h:43-52 on the layers of the stack (LinkCryptoStack.h:50-53, LinkLayer.cpp:20-24, CryptoLayer.cpp:86-96).
    After the upper layer was told, CryptoLayer resets two of its members. *)
Definition u_close_stack (handler : udp -> ures) (id : N) (s : udp) : ures :=
  member id s (fun o =>
    if ustack o then
      go s1 <- u_close_upper handler id (store id (set_ustack false o) s);
      member id s1 (fun _ => UGood s1)
    else UGood s).

(** Session.h:65-69 shutdown with AsioLowerLayer.h:30-34 close *)
Definition u_shutdown (handler : udp -> ures) (id : N) (s : udp) : ures :=
  go s1 <- u_try_close id Lower s;
  go s2 <- u_close_stack handler id s1;
  u_check id s2.

(** Some socket of this process is bound to the port of this side *)
Definition port_taken (x : side) (s : udp) : bool :=
  existsb (fun n => match uobj s (N.of_nat n) with Some o => so_open (sock_of x o) | None => false end) (seq 0 (N.to_nat (unext s))).

Definition new_sock : sock := {| so_open := true; so_rx := false; so_tx := false; so_rx_open := false; so_tx_open := false |}.

(** UdpProxySession.cpp:55-98 start_session; Session.h:58-63 start, AsioLowerLayer.h:21-28 open *)
Definition start_session (s : udp) : ures :=
  if port_taken Lower s || port_taken Upper s then UBad PortInUse
  else
    let id := unext s in
    let old := ucur s in
    let s1 := say (UBound id Upper) (say (UBound id Lower) (with_next (id + 1)%N s)) in
    let s2 := say (UStarted id) (with_cur (Some id) (store id {| lo := new_sock; up := new_sock; ustack := false; uapp := false |} s1)) in
    let s3 := match old with Some c => drop c s2 | None => s2 end in
    go s4 <- u_start id Lower Rx s3;
    member id s4 (fun o => UGood (store id (set_ustack true o) s4)).

(** UdpProxySession.cpp:47-53 on_session_error.  It calls itself through the stack; [depth] bounds the nesting. *)
Fixpoint u_session_error (depth : nat) (s : udp) : ures :=
  match depth with
  | O => UBad NestedTooDeep
  | S depth =>
      match ucur s with
      | None => UBad NoSession
      | Some id =>
          go s1 <- u_shutdown (u_session_error depth) id s;
          start_session s1
      end
  end.
Definition handler : udp -> ures := u_session_error 3.

(** AsioUdpSocketWrapper.h:53-70 and 88-102: the callback of an operation.  What the stack does with the data of a successful one
    are the events that follow. *)
Definition u_completed (id : N) (x : side) (d : way) (ok : bool) (s : udp) : ures :=
  member id s (fun o =>
    let k := set_act d false (sock_of x o) in
    if ok then UGood (say (UDone id x d true) (store id (set_sock x (set_seen d k) o) s))
    else
      let s1 := say (UDone id x d false) (store id (set_sock x k o) s) in
      if seen d k then
        match x with
        | Lower => u_close_stack handler id s1    (* AsioLowerLayer.h:71-74 *)
        | Upper => handler s1                      (* AsioUpperLayer.h:75-78 *)
        end
      else UGood s1).

(** What can happen next *)
Inductive uin :=
  | UCompleted (id : N) (x : side) (d : way) (ok : bool) (* the end of an operation on a socket *)
  | UStarts (id : N) (x : side) (d : way)                (* the stack of the session reads from or writes to a socket *)
  | UOpens (id : N)                                      (* the stack opens the upper layer: the handshake succeeded *)
  | UCloses (id : N)                                     (* the stack closes the upper layer: CryptoLayer.cpp:202 *)
  | UChecks (id : N).                                    (* a posted check_for_close runs *)

Definition ustep (s : udp) (e : uin) : ures :=
  match e with
  | UCompleted id x d ok =>
      if existsb (op_eqb (id, x, d)) (upend s) then u_completed id x d ok (with_pend (remove_op (id, x, d) (upend s)) s) else UGood s
  | UStarts id x d =>
      match uobj s id with
      | None => UGood s
      | Some o =>
          (* the AsioUpperLayer reads only while it is open (AsioUpperLayer.h:34-57); it writes only what the stack has for it, and a
             closed stack has nothing (CryptoLayer.cpp:91-92) *)
          match x with
          | Upper => if uapp o then u_start id x d s else UGood s
          | Lower => u_start id x d s
          end
      end
  (* IUpperLayer.h:26-35, AsioUpperLayer.h:34-37 *)
  | UOpens id =>
      match uobj s id with
      | None => UGood s
      | Some o => if ustack o && negb (uapp o) then u_start id Upper Rx (say (UUp id) (store id (set_uapp true o) s)) else UGood s
      end
  | UCloses id =>
      match uobj s id with
      | None => UGood s
      | Some o => if ustack o then u_close_upper handler id s else UGood s
      end
  (* Session.h:75-77: the handler holds a reference while it runs *)
  | UChecks id =>
      if mem id (uposted s) then
        go s1 <- u_check id (with_held (id :: uheld s) (with_posted (remove1 id (uposted s)) s));
        UGood (drop id (with_held (remove1 id (uheld s1)) s1))
      else UGood s
  end.

Fixpoint usteps (s : udp) (es : list uin) : ures :=
  match es with [] => UGood s | e :: r => go s1 <- ustep s e; usteps s1 r end.

(** UdpProxySession.cpp:14-45: the constructor and start *)
Definition idle_udp : udp := {| uobj := fun _ => None; ucur := None; uposted := []; uheld := []; upend := []; unext := 0; ulog := [] |}.
Definition started_udp : ures := start_session idle_udp.
