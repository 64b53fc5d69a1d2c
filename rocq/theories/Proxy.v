(** * Proxy: model of the session management of the TCP proxy

    cpp/exe/proxy/src/tcp/{TcpProxySession.cpp,AsioTcpSocketWrapper.h}, Session.h, AsioLowerLayer.h, AsioUpperLayer.h,
    and, of the library, the notifications that open and close layers (stack/IUpperLayer.h, stack/LinkCryptoStack.h,
    crypto/CryptoLayer.cpp:86-96 and 186-205).

    The executor runs one handler at a time.  What the protocol stack of a session does when data arrives, when a
    transmission ends or when a timer expires is left open: starting operations on the sockets, opening and closing
    the upper layer are events of the environment, so whatever is proved holds for every behaviour of the stack.
    The three open flags of the layers inside a stack (AbstractStack, LinkLayer, CryptoLayer) are set and cleared
    together and are one flag here.

    Objects are reference counted: a session lives as long as the map, a posted check or a local variable refers to it.
    Using a member of a destroyed session, or an iterator to an erased element, is undefined and ends the run.

    Not modelled: the data, logging, exceptions, identifiers beyond 2^64. *)
From Verif Require Import Base.

Inductive side := Lower | Upper.
Inductive way := Rx | Tx.

(** Session.h:86-93, AsioTcpSocketWrapper.h:123-128, IUpperLayer.h:125: the state of a session *)
Record psess := { lower_open : bool; upper_open : bool;       (* socket.is_open() of the two sockets *)
                  lower_rx : bool; lower_tx : bool;            (* is_rx_active, is_tx_active of the lower socket *)
                  upper_rx : bool; upper_tx : bool;            (* the same of the upper socket *)
                  stack_on : bool;                             (* is_open_flag of the stack *)
                  app_on : bool }.                             (* is_open_flag of the AsioUpperLayer *)

(** What can be observed: a session was added to or removed from the map, a socket was closed, a session was destroyed, a
    connection was turned away. *)
Inductive pev := PAdded (id : N) | PRemoved (id : N) | PClosed (id : N) (x : side) | PDestroyed (id : N) | PRefused.

(** TcpProxySession.h:62-77.  [pending] are the asynchronous operations the sockets have not completed, [posted] the handlers
    posted by check_for_close, [locals] the references held by functions that are running. *)
Record proxy := { objects : list (N * psess); sessions : list N; posted : list N; locals : list N;
                  pending : list (N * side * way); next_id : N; max_sessions : N; accepting : bool; connecting : nat;
                  plog : list pev }.

Inductive why := BadIterator | Destroyed | TooDeep.
Inductive pres := Good (s : proxy) | Bad (w : why).
Definition pbind (r : pres) (f : proxy -> pres) : pres := match r with Good s => f s | Bad w => Bad w end.
Notation "'run' s <- r ; k" := (pbind r (fun s => k)) (at level 200, s name, r at level 100, k at level 200).

Fixpoint lookup (id : N) (l : list (N * psess)) : option psess :=
  match l with [] => None | (i, o) :: r => if (i =? id)%N then Some o else lookup id r end.
Fixpoint replace (id : N) (o : psess) (l : list (N * psess)) : list (N * psess) :=
  match l with [] => [] | (i, x) :: r => if (i =? id)%N then (i, o) :: r else (i, x) :: replace id o r end.
Definition mem (id : N) (l : list N) : bool := existsb (N.eqb id) l.
Fixpoint remove1 (id : N) (l : list N) : list N :=
  match l with [] => [] | i :: r => if (i =? id)%N then r else i :: remove1 id r end.
(** std::map: ordered by key *)
Fixpoint insert (id : N) (l : list N) : list N :=
  match l with [] => [id] | i :: r => if (id <? i)%N then id :: l else if (id =? i)%N then l else i :: insert id r end.

Definition set_objects v s := {| objects := v; sessions := sessions s; posted := posted s; locals := locals s; pending := pending s; next_id := next_id s; max_sessions := max_sessions s; accepting := accepting s; connecting := connecting s; plog := plog s |}.
Definition set_sessions v s := {| objects := objects s; sessions := v; posted := posted s; locals := locals s; pending := pending s; next_id := next_id s; max_sessions := max_sessions s; accepting := accepting s; connecting := connecting s; plog := plog s |}.
Definition set_posted v s := {| objects := objects s; sessions := sessions s; posted := v; locals := locals s; pending := pending s; next_id := next_id s; max_sessions := max_sessions s; accepting := accepting s; connecting := connecting s; plog := plog s |}.
Definition set_locals v s := {| objects := objects s; sessions := sessions s; posted := posted s; locals := v; pending := pending s; next_id := next_id s; max_sessions := max_sessions s; accepting := accepting s; connecting := connecting s; plog := plog s |}.
Definition set_pending v s := {| objects := objects s; sessions := sessions s; posted := posted s; locals := locals s; pending := v; next_id := next_id s; max_sessions := max_sessions s; accepting := accepting s; connecting := connecting s; plog := plog s |}.
Definition set_next v s := {| objects := objects s; sessions := sessions s; posted := posted s; locals := locals s; pending := pending s; next_id := v; max_sessions := max_sessions s; accepting := accepting s; connecting := connecting s; plog := plog s |}.
Definition set_accepting v s := {| objects := objects s; sessions := sessions s; posted := posted s; locals := locals s; pending := pending s; next_id := next_id s; max_sessions := max_sessions s; accepting := v; connecting := connecting s; plog := plog s |}.
Definition set_connecting v s := {| objects := objects s; sessions := sessions s; posted := posted s; locals := locals s; pending := pending s; next_id := next_id s; max_sessions := max_sessions s; accepting := accepting s; connecting := v; plog := plog s |}.
Definition observe e s := {| objects := objects s; sessions := sessions s; posted := posted s; locals := locals s; pending := pending s; next_id := next_id s; max_sessions := max_sessions s; accepting := accepting s; connecting := connecting s; plog := plog s ++ [e] |}.

(** The use of a member of a session *)
Definition with_session (id : N) (s : proxy) (k : psess -> pres) : pres :=
  match lookup id (objects s) with Some o => k o | None => Bad Destroyed end.
Definition put (id : N) (o : psess) (s : proxy) : proxy := set_objects (replace id o (objects s)) s.

(** The end of the lifetime of a shared_ptr to a session *)
Definition release (id : N) (s : proxy) : proxy :=
  if mem id (sessions s) || mem id (posted s) || mem id (locals s) then s
  else observe (PDestroyed id) (set_objects (filter (fun p => negb (fst p =? id)%N) (objects s)) s).

Definition is_open (x : side) (o : psess) : bool := match x with Lower => lower_open o | Upper => upper_open o end.
Definition set_open (x : side) (b : bool) (o : psess) : psess :=
  match x with
  | Lower => {| lower_open := b; upper_open := upper_open o; lower_rx := lower_rx o; lower_tx := lower_tx o; upper_rx := upper_rx o; upper_tx := upper_tx o; stack_on := stack_on o; app_on := app_on o |}
  | Upper => {| lower_open := lower_open o; upper_open := b; lower_rx := lower_rx o; lower_tx := lower_tx o; upper_rx := upper_rx o; upper_tx := upper_tx o; stack_on := stack_on o; app_on := app_on o |}
  end.
Definition is_active (x : side) (d : way) (o : psess) : bool :=
  match x, d with Lower, Rx => lower_rx o | Lower, Tx => lower_tx o | Upper, Rx => upper_rx o | Upper, Tx => upper_tx o end.
Definition set_active (x : side) (d : way) (b : bool) (o : psess) : psess :=
  {| lower_open := lower_open o; upper_open := upper_open o;
     lower_rx := match x, d with Lower, Rx => b | _, _ => lower_rx o end;
     lower_tx := match x, d with Lower, Tx => b | _, _ => lower_tx o end;
     upper_rx := match x, d with Upper, Rx => b | _, _ => upper_rx o end;
     upper_tx := match x, d with Upper, Tx => b | _, _ => upper_tx o end;
     stack_on := stack_on o; app_on := app_on o |}.
Definition set_stack_on (b : bool) (o : psess) : psess :=
  {| lower_open := lower_open o; upper_open := upper_open o; lower_rx := lower_rx o; lower_tx := lower_tx o; upper_rx := upper_rx o; upper_tx := upper_tx o; stack_on := b; app_on := app_on o |}.
Definition set_app_on (b : bool) (o : psess) : psess :=
  {| lower_open := lower_open o; upper_open := upper_open o; lower_rx := lower_rx o; lower_tx := lower_tx o; upper_rx := upper_rx o; upper_tx := upper_tx o; stack_on := stack_on o; app_on := b |}.

(** AsioTcpSocketWrapper.h:31-41 try_close_socket.  Pending operations complete later, with an error. *)
Definition try_close_socket (id : N) (x : side) (s : proxy) : pres :=
  with_session id s (fun o =>
    if is_open x o then Good (observe (PClosed id x) (put id (set_open x false o) s)) else Good s).

(** AsioTcpSocketWrapper.h:43-76 start_rx_from_socket and 78-105 start_tx_to_socket *)
Definition start_operation (id : N) (x : side) (d : way) (s : proxy) : pres :=
  with_session id s (fun o =>
    if negb (is_open x o) || is_active x d o then Good s
    else Good (set_pending (pending s ++ [(id, x, d)]) (put id (set_active x d true o) s))).

(** Session.h:81-84 is_shutdown, IAsioSocketWrapper.h:20-23 *)
Definition is_shutdown (o : psess) : bool := negb ((lower_rx o || lower_tx o) || (upper_rx o || upper_tx o)).

(** Session.h:72-79 check_for_close *)
Definition check_for_close (id : N) (s : proxy) : pres :=
  with_session id s (fun o => if is_shutdown o then Good s else Good (set_posted (posted s ++ [id]) s)).

(** AsioUpperLayer.h:39-43, called through IUpperLayer.h:43-52: nothing of the layer is used after the error handler *)
Definition close_upper (error_handler : N -> proxy -> pres) (id : N) (s : proxy) : pres :=
  with_session id s (fun o =>
    if app_on o then
      run s1 <- try_close_socket id Upper (put id (set_app_on false o) s);
      error_handler id s1
    else Good s).

(** IUpperLayer.h:43-52 on the layers of the stack (LinkCryptoStack.h:50-53, LinkLayer.cpp:20-24, CryptoLayer.cpp:86-96).
    After the upper layer was told, CryptoLayer resets two of its members. *)
Definition close_stack (error_handler : N -> proxy -> pres) (id : N) (s : proxy) : pres :=
  with_session id s (fun o =>
    if stack_on o then
      run s1 <- close_upper error_handler id (put id (set_stack_on false o) s);
      with_session id s1 (fun _ => Good s1)
    else Good s).

(** Session.h:65-69 shutdown with AsioLowerLayer.h:30-34 close *)
Definition shutdown (error_handler : N -> proxy -> pres) (id : N) (s : proxy) : pres :=
  run s1 <- try_close_socket id Lower s;
  run s2 <- close_stack error_handler id s1;
  check_for_close id s2.

(** TcpProxySession.cpp:47-55 on_session_error.  It calls itself through the stack; [depth] bounds the nesting. *)
Fixpoint on_session_error (depth : nat) (id : N) (s : proxy) : pres :=
  match depth with
  | O => Bad TooDeep
  | S depth =>
      if mem id (sessions s) then
        let s1 := set_locals (id :: locals s) s in
        let s2 := observe (PRemoved id) (set_sessions (remove1 id (sessions s1)) s1) in
        run s3 <- shutdown (on_session_error depth) id s2;
        Good (release id (set_locals (remove1 id (locals s3)) s3))
      else Good s
  end.
Definition error_handler : N -> proxy -> pres := on_session_error 3.

(** A session as constructed: Session.h:51-63, with both sockets open *)
Definition fresh_session : psess :=
  {| lower_open := true; upper_open := true; lower_rx := false; lower_tx := false; upper_rx := false; upper_tx := false; stack_on := false; app_on := false |}.

(** TcpProxySession.cpp:89-96: the oldest session is shut down and removed when the map is full *)
Definition make_room (s : proxy) : pres :=
  if (N.of_nat (length (sessions s)) =? max_sessions s)%N then
    match sessions s with
    | [] => Bad BadIterator
    | oldest :: _ =>
        run s1 <- shutdown error_handler oldest s;
        if mem oldest (sessions s1) then Good (release oldest (observe (PRemoved oldest) (set_sessions (remove1 oldest (sessions s1)) s1)))
        else Bad BadIterator
    end
  else Good s.

(** TcpProxySession.cpp:86-128, Session.h:58-63 start, AsioLowerLayer.h:21-28 open: the connection to the other side succeeded *)
Definition connected (s : proxy) : pres :=
  run s1 <- make_room s;
  let id := next_id s1 in
  let s2 := set_next (id + 1)%N s1 in
  let s3 := observe (PAdded id) (set_sessions (insert id (sessions s2)) (set_objects (objects s2 ++ [(id, fresh_session)]) s2)) in
  run s4 <- start_operation id Lower Rx s3;
  with_session id s4 (fun o => Good (put id (set_stack_on true o) s4)).

(** AsioTcpSocketWrapper.h:48-65 and 83-96: the callback of an operation.  What the stack does with the data of a
    successful one are the events that follow. *)
Definition completed (id : N) (x : side) (d : way) (ok : bool) (s : proxy) : pres :=
  with_session id s (fun o =>
    let s1 := put id (set_active x d false o) s in
    if ok then Good s1
    else if is_open x o then
      run s2 <- try_close_socket id x s1;
      match x with
      | Lower => close_stack error_handler id s2    (* AsioLowerLayer.h:71-74 *)
      | Upper => error_handler id s2                 (* AsioUpperLayer.h:75-78 *)
      end
    else Good s1).

Definition op_eqb (a b : N * side * way) : bool :=
  let '(i, x, d) := a in let '(j, y, e) := b in
  (i =? j)%N && match x, y with Lower, Lower | Upper, Upper => true | _, _ => false end
             && match d, e with Rx, Rx | Tx, Tx => true | _, _ => false end.
Fixpoint remove_op (a : N * side * way) (l : list (N * side * way)) : list (N * side * way) :=
  match l with [] => [] | b :: r => if op_eqb a b then r else b :: remove_op a r end.

(** What can happen next *)
Inductive pin :=
  | Accepted                                          (* a connection is accepted: the proxy connects to the other side *)
  | AcceptFailed
  | Connected | ConnectFailed                          (* the end of such an attempt *)
  | Completed (id : N) (x : side) (d : way) (ok : bool) (* the end of an operation on a socket *)
  | Starts (id : N) (x : side) (d : way)               (* the stack of the session reads from or writes to a socket *)
  | Opens (id : N)                                     (* the stack opens the upper layer: the handshake succeeded *)
  | Closes (id : N)                                    (* the stack closes the upper layer: CryptoLayer.cpp:202 *)
  | Checks (id : N).                                   (* a posted check_for_close runs *)

Definition step (s : proxy) (e : pin) : pres :=
  match e with
  (* TcpProxySession.cpp:57-72: the next connection is awaited only after a success *)
  | Accepted => if accepting s then Good (set_connecting (S (connecting s)) s) else Good s
  | AcceptFailed => Good (set_accepting false s)
  | Connected =>
      match connecting s with O => Good s | S n => connected (set_connecting n s) end
  (* TcpProxySession.cpp:81-85 *)
  | ConnectFailed =>
      match connecting s with O => Good s | S n => Good (observe PRefused (set_connecting n s)) end
  | Completed id x d ok =>
      if existsb (op_eqb (id, x, d)) (pending s) then completed id x d ok (set_pending (remove_op (id, x, d) (pending s)) s) else Good s
  | Starts id x d =>
      match lookup id (objects s) with
      | None => Good s
      | Some o =>
          (* the AsioUpperLayer reads and writes only while it is open (AsioUpperLayer.h:34-57) or after a transmission
             (lines 68-73), when its socket is closed if it is not *)
          match x with
          | Upper => if app_on o then start_operation id x d s else Good s
          | Lower => start_operation id x d s
          end
      end
  (* IUpperLayer.h:26-35, AsioUpperLayer.h:34-37 *)
  | Opens id =>
      match lookup id (objects s) with
      | None => Good s
      | Some o => if stack_on o && negb (app_on o) then start_operation id Upper Rx (put id (set_app_on true o) s) else Good s
      end
  | Closes id =>
      match lookup id (objects s) with
      | None => Good s
      | Some o => if stack_on o then close_upper error_handler id s else Good s
      end
  (* Session.h:75-77 *)
  | Checks id =>
      if mem id (posted s) then
        let s1 := set_locals (id :: locals s) (set_posted (remove1 id (posted s)) s) in
        run s2 <- check_for_close id s1;
        Good (release id (set_locals (remove1 id (locals s2)) s2))
      else Good s
  end.

Fixpoint steps (s : proxy) (es : list pin) : pres :=
  match es with [] => Good s | e :: r => run s1 <- step s e; steps s1 r end.

(** TcpProxySession.cpp:22-45: [max] is the configured number of sessions *)
Definition new_proxy (max : N) : proxy :=
  {| objects := []; sessions := []; posted := []; locals := []; pending := []; next_id := 0; max_sessions := if (max =? 0)%N then 1%N else max;
     accepting := true; connecting := 0; plog := [] |}.
