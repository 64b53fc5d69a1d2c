(** * Endpoint: model of the crypto layer, the initiator and the responder

    cpp/libs/ssp21/src/crypto/{CryptoLayer,Initiator,InitiatorHandshakeStates,Responder}.cpp,
    TxState.h, with the base classes include/ssp21/stack/{ILowerLayer,IUpperLayer}.h.

    The methods call each other, the neighbouring layers and the executor.  The application above
    may call back into the endpoint from inside its notifications, so the model is a machine with
    an explicit stack of the calls still to be made: [exec] executes the instruction on top of the
    stack and pushes the calls it makes.  Everything the environment decides (the time, the
    answers of the lower layer, randomness, the calls the application makes inside a notification)
    is an input of the step, so that a theorem about all lists of labels is a theorem about all
    environments.

    The calls the endpoint makes on the lower layer and on the executor do not call back into the
    endpoint (ILowerLayer.h:28-46: the operations are asynchronous).

    Not modelled: logging and printing; the statistics (see Session); 64-bit overflow of times.  A
    transmit buffer accepted from the application is represented by the bytes it had when it was
    accepted (ILowerLayer.h:34-35 forbids changing it until it is transmitted). *)
From Verif Require Import Base Codec Link LinkLayer Primitives Session Handshake.

(** Initiator.h:32-38 IHandshakeState::Enum *)
Inductive hstate := Idle | WaitForBeginReply | WaitForAuthReply | WaitForRetry | BadConfiguration.

(** Initiator.cpp:69-86: the two things the response_and_retry_timer can be started for *)
Inductive rtimer := TResponse | TRetry.

(** What [payload_data] (CryptoLayer.h:110) can point to: the first bytes of [payload_buffer]
    (AES-GCM, where validation decrypts into that buffer), or a part of the message the lower layer
    returned from its [gen]-th start_rx_from_upper (HMAC, MacAdapters.h:48-84 returns the ciphertext
    slice itself), which ILowerLayer.h:44-46 promises to keep only until its next call. *)
Inductive slice := InBuffer (len : nat) | InMessage (gen : nat) (bytes : list N).

(** CryptoLayer.h:98-113, TxState.h:80-82, Initiator.h:128-136, and the private flags
    IUpperLayer.h:125 of this layer ([ep_open]) and of the upper layer ([ep_up]), ILowerLayer.h:106
    of this layer ([ep_proc]).
    An assignment to an exe4cpp::Timer that is still running may or may not stop it; [ep_stale] and
    [ep_session_stale] are the timers that were overwritten while running.
    [ep_generation] counts the calls lower->start_rx_from_upper().
    [ep_busy] records the state of the lower layer: a transmission was started, or it reported that
    it was not ready, and it has not called on_lower_tx_ready since. *)
Record endpoint := {
  ep_open : bool; ep_up : bool; ep_proc : bool;
  ep_active : session; ep_pending : session;
  ep_transmitting : bool; ep_remainder : list N;
  ep_payload : option slice; ep_buffer : list N; ep_generation : nat;
  ep_state : hstate; ep_ihs : ihs; ep_required : bool;
  ep_timer : option rtimer; ep_stale : list rtimer; ep_session_timer : bool; ep_session_stale : nat;
  ep_busy : bool }.

(** Assignment to one member *)
Definition set_open (s : endpoint) (v : bool) : endpoint :=
  {| ep_open := v; ep_up := ep_up s; ep_proc := ep_proc s; ep_active := ep_active s; ep_pending := ep_pending s; ep_transmitting := ep_transmitting s; ep_remainder := ep_remainder s; ep_payload := ep_payload s; ep_buffer := ep_buffer s; ep_generation := ep_generation s; ep_state := ep_state s; ep_ihs := ep_ihs s; ep_required := ep_required s; ep_timer := ep_timer s; ep_stale := ep_stale s; ep_session_timer := ep_session_timer s; ep_session_stale := ep_session_stale s; ep_busy := ep_busy s |}.
Definition set_up (s : endpoint) (v : bool) : endpoint :=
  {| ep_open := ep_open s; ep_up := v; ep_proc := ep_proc s; ep_active := ep_active s; ep_pending := ep_pending s; ep_transmitting := ep_transmitting s; ep_remainder := ep_remainder s; ep_payload := ep_payload s; ep_buffer := ep_buffer s; ep_generation := ep_generation s; ep_state := ep_state s; ep_ihs := ep_ihs s; ep_required := ep_required s; ep_timer := ep_timer s; ep_stale := ep_stale s; ep_session_timer := ep_session_timer s; ep_session_stale := ep_session_stale s; ep_busy := ep_busy s |}.
Definition set_proc (s : endpoint) (v : bool) : endpoint :=
  {| ep_open := ep_open s; ep_up := ep_up s; ep_proc := v; ep_active := ep_active s; ep_pending := ep_pending s; ep_transmitting := ep_transmitting s; ep_remainder := ep_remainder s; ep_payload := ep_payload s; ep_buffer := ep_buffer s; ep_generation := ep_generation s; ep_state := ep_state s; ep_ihs := ep_ihs s; ep_required := ep_required s; ep_timer := ep_timer s; ep_stale := ep_stale s; ep_session_timer := ep_session_timer s; ep_session_stale := ep_session_stale s; ep_busy := ep_busy s |}.
Definition set_active (s : endpoint) (v : session) : endpoint :=
  {| ep_open := ep_open s; ep_up := ep_up s; ep_proc := ep_proc s; ep_active := v; ep_pending := ep_pending s; ep_transmitting := ep_transmitting s; ep_remainder := ep_remainder s; ep_payload := ep_payload s; ep_buffer := ep_buffer s; ep_generation := ep_generation s; ep_state := ep_state s; ep_ihs := ep_ihs s; ep_required := ep_required s; ep_timer := ep_timer s; ep_stale := ep_stale s; ep_session_timer := ep_session_timer s; ep_session_stale := ep_session_stale s; ep_busy := ep_busy s |}.
Definition set_pending (s : endpoint) (v : session) : endpoint :=
  {| ep_open := ep_open s; ep_up := ep_up s; ep_proc := ep_proc s; ep_active := ep_active s; ep_pending := v; ep_transmitting := ep_transmitting s; ep_remainder := ep_remainder s; ep_payload := ep_payload s; ep_buffer := ep_buffer s; ep_generation := ep_generation s; ep_state := ep_state s; ep_ihs := ep_ihs s; ep_required := ep_required s; ep_timer := ep_timer s; ep_stale := ep_stale s; ep_session_timer := ep_session_timer s; ep_session_stale := ep_session_stale s; ep_busy := ep_busy s |}.
Definition set_transmitting (s : endpoint) (v : bool) : endpoint :=
  {| ep_open := ep_open s; ep_up := ep_up s; ep_proc := ep_proc s; ep_active := ep_active s; ep_pending := ep_pending s; ep_transmitting := v; ep_remainder := ep_remainder s; ep_payload := ep_payload s; ep_buffer := ep_buffer s; ep_generation := ep_generation s; ep_state := ep_state s; ep_ihs := ep_ihs s; ep_required := ep_required s; ep_timer := ep_timer s; ep_stale := ep_stale s; ep_session_timer := ep_session_timer s; ep_session_stale := ep_session_stale s; ep_busy := ep_busy s |}.
Definition set_remainder (s : endpoint) (v : list N) : endpoint :=
  {| ep_open := ep_open s; ep_up := ep_up s; ep_proc := ep_proc s; ep_active := ep_active s; ep_pending := ep_pending s; ep_transmitting := ep_transmitting s; ep_remainder := v; ep_payload := ep_payload s; ep_buffer := ep_buffer s; ep_generation := ep_generation s; ep_state := ep_state s; ep_ihs := ep_ihs s; ep_required := ep_required s; ep_timer := ep_timer s; ep_stale := ep_stale s; ep_session_timer := ep_session_timer s; ep_session_stale := ep_session_stale s; ep_busy := ep_busy s |}.
Definition set_payload (s : endpoint) (v : option slice) : endpoint :=
  {| ep_open := ep_open s; ep_up := ep_up s; ep_proc := ep_proc s; ep_active := ep_active s; ep_pending := ep_pending s; ep_transmitting := ep_transmitting s; ep_remainder := ep_remainder s; ep_payload := v; ep_buffer := ep_buffer s; ep_generation := ep_generation s; ep_state := ep_state s; ep_ihs := ep_ihs s; ep_required := ep_required s; ep_timer := ep_timer s; ep_stale := ep_stale s; ep_session_timer := ep_session_timer s; ep_session_stale := ep_session_stale s; ep_busy := ep_busy s |}.
Definition set_buffer (s : endpoint) (v : list N) : endpoint :=
  {| ep_open := ep_open s; ep_up := ep_up s; ep_proc := ep_proc s; ep_active := ep_active s; ep_pending := ep_pending s; ep_transmitting := ep_transmitting s; ep_remainder := ep_remainder s; ep_payload := ep_payload s; ep_buffer := v; ep_generation := ep_generation s; ep_state := ep_state s; ep_ihs := ep_ihs s; ep_required := ep_required s; ep_timer := ep_timer s; ep_stale := ep_stale s; ep_session_timer := ep_session_timer s; ep_session_stale := ep_session_stale s; ep_busy := ep_busy s |}.
Definition set_generation (s : endpoint) (v : nat) : endpoint :=
  {| ep_open := ep_open s; ep_up := ep_up s; ep_proc := ep_proc s; ep_active := ep_active s; ep_pending := ep_pending s; ep_transmitting := ep_transmitting s; ep_remainder := ep_remainder s; ep_payload := ep_payload s; ep_buffer := ep_buffer s; ep_generation := v; ep_state := ep_state s; ep_ihs := ep_ihs s; ep_required := ep_required s; ep_timer := ep_timer s; ep_stale := ep_stale s; ep_session_timer := ep_session_timer s; ep_session_stale := ep_session_stale s; ep_busy := ep_busy s |}.
Definition set_state (s : endpoint) (v : hstate) : endpoint :=
  {| ep_open := ep_open s; ep_up := ep_up s; ep_proc := ep_proc s; ep_active := ep_active s; ep_pending := ep_pending s; ep_transmitting := ep_transmitting s; ep_remainder := ep_remainder s; ep_payload := ep_payload s; ep_buffer := ep_buffer s; ep_generation := ep_generation s; ep_state := v; ep_ihs := ep_ihs s; ep_required := ep_required s; ep_timer := ep_timer s; ep_stale := ep_stale s; ep_session_timer := ep_session_timer s; ep_session_stale := ep_session_stale s; ep_busy := ep_busy s |}.
Definition set_ihs (s : endpoint) (v : ihs) : endpoint :=
  {| ep_open := ep_open s; ep_up := ep_up s; ep_proc := ep_proc s; ep_active := ep_active s; ep_pending := ep_pending s; ep_transmitting := ep_transmitting s; ep_remainder := ep_remainder s; ep_payload := ep_payload s; ep_buffer := ep_buffer s; ep_generation := ep_generation s; ep_state := ep_state s; ep_ihs := v; ep_required := ep_required s; ep_timer := ep_timer s; ep_stale := ep_stale s; ep_session_timer := ep_session_timer s; ep_session_stale := ep_session_stale s; ep_busy := ep_busy s |}.
Definition set_required (s : endpoint) (v : bool) : endpoint :=
  {| ep_open := ep_open s; ep_up := ep_up s; ep_proc := ep_proc s; ep_active := ep_active s; ep_pending := ep_pending s; ep_transmitting := ep_transmitting s; ep_remainder := ep_remainder s; ep_payload := ep_payload s; ep_buffer := ep_buffer s; ep_generation := ep_generation s; ep_state := ep_state s; ep_ihs := ep_ihs s; ep_required := v; ep_timer := ep_timer s; ep_stale := ep_stale s; ep_session_timer := ep_session_timer s; ep_session_stale := ep_session_stale s; ep_busy := ep_busy s |}.
Definition set_timer (s : endpoint) (v : option rtimer) : endpoint :=
  {| ep_open := ep_open s; ep_up := ep_up s; ep_proc := ep_proc s; ep_active := ep_active s; ep_pending := ep_pending s; ep_transmitting := ep_transmitting s; ep_remainder := ep_remainder s; ep_payload := ep_payload s; ep_buffer := ep_buffer s; ep_generation := ep_generation s; ep_state := ep_state s; ep_ihs := ep_ihs s; ep_required := ep_required s; ep_timer := v; ep_stale := ep_stale s; ep_session_timer := ep_session_timer s; ep_session_stale := ep_session_stale s; ep_busy := ep_busy s |}.
Definition set_stale (s : endpoint) (v : list rtimer) : endpoint :=
  {| ep_open := ep_open s; ep_up := ep_up s; ep_proc := ep_proc s; ep_active := ep_active s; ep_pending := ep_pending s; ep_transmitting := ep_transmitting s; ep_remainder := ep_remainder s; ep_payload := ep_payload s; ep_buffer := ep_buffer s; ep_generation := ep_generation s; ep_state := ep_state s; ep_ihs := ep_ihs s; ep_required := ep_required s; ep_timer := ep_timer s; ep_stale := v; ep_session_timer := ep_session_timer s; ep_session_stale := ep_session_stale s; ep_busy := ep_busy s |}.
Definition set_session_timer (s : endpoint) (v : bool) : endpoint :=
  {| ep_open := ep_open s; ep_up := ep_up s; ep_proc := ep_proc s; ep_active := ep_active s; ep_pending := ep_pending s; ep_transmitting := ep_transmitting s; ep_remainder := ep_remainder s; ep_payload := ep_payload s; ep_buffer := ep_buffer s; ep_generation := ep_generation s; ep_state := ep_state s; ep_ihs := ep_ihs s; ep_required := ep_required s; ep_timer := ep_timer s; ep_stale := ep_stale s; ep_session_timer := v; ep_session_stale := ep_session_stale s; ep_busy := ep_busy s |}.
Definition set_session_stale (s : endpoint) (v : nat) : endpoint :=
  {| ep_open := ep_open s; ep_up := ep_up s; ep_proc := ep_proc s; ep_active := ep_active s; ep_pending := ep_pending s; ep_transmitting := ep_transmitting s; ep_remainder := ep_remainder s; ep_payload := ep_payload s; ep_buffer := ep_buffer s; ep_generation := ep_generation s; ep_state := ep_state s; ep_ihs := ep_ihs s; ep_required := ep_required s; ep_timer := ep_timer s; ep_stale := ep_stale s; ep_session_timer := ep_session_timer s; ep_session_stale := v; ep_busy := ep_busy s |}.
Definition set_busy (s : endpoint) (v : bool) : endpoint :=
  {| ep_open := ep_open s; ep_up := ep_up s; ep_proc := ep_proc s; ep_active := ep_active s; ep_pending := ep_pending s; ep_transmitting := ep_transmitting s; ep_remainder := ep_remainder s; ep_payload := ep_payload s; ep_buffer := ep_buffer s; ep_generation := ep_generation s; ep_state := ep_state s; ep_ihs := ep_ihs s; ep_required := ep_required s; ep_timer := ep_timer s; ep_stale := ep_stale s; ep_session_timer := ep_session_timer s; ep_session_stale := ep_session_stale s; ep_busy := v |}.

(** CryptoLayerConfig.h:41-66 InitiatorConfig (the two timeouts do not matter: a timer may fire at
    any time), and what the constructors receive.
    [c_via_stack]: the application reads through the stack object (LinkCryptoStack.h:13-68), whose
    own ILowerLayer flag takes the place of the flag of the crypto layer and is not reset when the
    layer closes; [false] for an application bound to the crypto layer itself. *)
Record iconf := { ic_handshake : initiator_handshake; ic_limits : limits; ic_nonce_trigger : N }.
Inductive role := Initiator (c : iconf) | Responder (h : responder_handshake).
Record econf := { c_env : senv; c_supports : supports; c_role : role; c_payload_size : nat; c_via_stack : bool }.

(** CryptoLayer.cpp:10-24, Initiator.cpp:14-32, Responder.cpp:11-24: the constructors *)
Definition new_endpoint (C : econf) : endpoint :=
  {| ep_open := false; ep_up := false; ep_proc := false; ep_active := new_session; ep_pending := new_session;
     ep_transmitting := false; ep_remainder := []; ep_payload := None;
     ep_buffer := repeat 0%N (c_payload_size C); ep_generation := 0;
     ep_state := Idle; ep_ihs := new_ihs; ep_required := false;
     ep_timer := None; ep_stale := []; ep_session_timer := false; ep_session_stale := 0; ep_busy := false |}.

(** The calls that enter the endpoint: the application's (ILowerLayer.h:36-63) and the lower
    layer's (IUpperLayer.h:26-84) *)
Inductive call :=
| StartTx (data : list N) | StartRx
| LowerOpen | LowerClose | LowerTxReady | LowerRxReady.

(** What the environment answers during one step: executor->get_time() at the start of the step and
    when a session message is formatted; lower->is_tx_ready(); the message of
    lower->start_rx_from_upper(); the result of lower->start_tx_from_upper(); the calls the
    application makes inside the notification of this step; randomness and keys; what a failed
    AES-GCM decryption leaves in the destination buffer. *)
Record input := {
  in_now : Z; in_now2 : Z; in_ready : bool; in_message : list N; in_started : bool;
  in_calls : list call; in_answers : answers; in_ianswers : ianswers; in_scratch : list N }.

(** The calls still to be made *)
Inductive instr :=
| ICall (c : call)                 (* a call that enters the endpoint *)
| ITryRead                         (* CryptoLayer.cpp:124-128 try_read_from_lower *)
| IProcess (message : list N)      (* CryptoLayer.cpp:151-184 process *)
| ICheckTransmit                   (* CryptoLayer.cpp:186-212 check_transmit *)
| IUpOpen | IUpClose | IUpTxReady | IUpRxReady (* calls on the upper layer *)
| IHandshakeRequired               (* Initiator.cpp:97-100 on_handshake_required *)
| INonceChange                     (* on_session_nonce_change of the active session *)
| IPreTxReady                      (* Initiator.cpp:135-140 on_pre_tx_ready *)
| IAuthPayload (p : option slice)  (* Responder.cpp:106-110, InitiatorHandshakeStates.cpp:126-130 *)
| ISetState (h : hstate)           (* the assignment Initiator.cpp:154 after on_auth_message returned *)
| ICloseTail.                      (* CryptoLayer.cpp:94-95 *)

(** What the frame given to the lower layer carries; the data is the part of the application's
    transmit buffer that was put into the message *)
Inductive txkind := TxRequest | TxReply | TxError | TxAuth (data : list N) | TxData (data : list N).

(** What happens, in order.  [EvTx], [EvQuery], [EvRecv] are the calls on the lower layer with their
    answers, [EvUp*] the notifications of the upper layer, [EvAccept]/[EvReject] the answers to
    start_tx_from_upper, [EvRead] the data returned by start_rx_from_upper.  [EvKeys], [EvAuthOk] and
    [EvDataOk] record that the pending session got new keys, that a message was accepted as the
    authentication of the pending session, and that it was accepted by the active session, with the
    session that accepted it and the payload; [EvEmpty] that the active session rejected a message only
    because it carries no data (Session.cpp:63-66: its nonce counts as received);
    [EvNoAnswer] that the responder could not send its own authentication (Responder.cpp:99-102); [EvFail] that a transmission error reset the active session;
    [EvOpened]/[EvClosed] that the lower layer opened or closed this layer. *)
Inductive event :=
| EvQuery (ready : bool) | EvRecv (message : list N) | EvTx (k : txkind) (frame : list N)
| EvUpOpen | EvUpClose | EvUpTxReady | EvUpRxReady
| EvAccept (data : list N) | EvReject (data : list N) | EvRead (data : list N)
| EvKeys (s : session) | EvAuthOk (s : session) (m : SessionData) (payload : list N) | EvDataOk (s : session) (m : SessionData) (payload : list N)
| EvEmpty (m : SessionData) | EvNoAnswer | EvFail | EvOpened | EvClosed.

(** Result of a step: the state, the calls made, the events *)
Definition xres := outcome (endpoint * list instr * list event).

(** Initiator.cpp:69-95: a timer is started by assigning to the member *)
Definition start_timer (s : endpoint) (k : rtimer) : endpoint :=
  set_timer (set_stale s (match ep_timer s with Some k' => k' :: ep_stale s | None => ep_stale s end)) (Some k).
Definition start_session_timer (s : endpoint) : endpoint :=
  set_session_timer (set_session_stale s (if ep_session_timer s then S (ep_session_stale s) else ep_session_stale s)) true.

(** TxState.h:30-33 is_idle, 65-68 is_ready_tx *)
Definition tx_idle (s : endpoint) : bool := negb (ep_transmitting s) && is_empty (ep_remainder s).
Definition tx_ready (s : endpoint) : bool := negb (ep_transmitting s) && negb (is_empty (ep_remainder s)).
(** TxState.h:47-56 begin_transmit *)
Definition begin_transmit (s : endpoint) (rest : list N) : endpoint :=
  if is_empty (ep_remainder s) then s else set_remainder (set_transmitting s true) rest.

(** lower->is_tx_ready() and lower->start_tx_from_upper(frame), as far as the lower layer's state
    is concerned *)
Definition asked (s : endpoint) (inp : input) : endpoint := set_busy s (negb (in_ready inp)).
Definition started (s : endpoint) (inp : input) : endpoint := set_busy s (in_started inp || ep_busy s).

(** The part of the application's data that a formatted message took: what precedes the rest *)
Definition taken (before rest : list N) : list N := firstn (length before - length rest) before.

(** CryptoLayer.cpp:214-234 transmit_session_auth on a session: the result (None on a format error,
    otherwise the answer of the lower layer), the session and the endpoint afterwards *)
Definition transmit_session_auth (C : econf) (s : endpoint) (sess : session) (inp : input)
  : outcome (bool * session * endpoint * list event) :=
  let* (r, rest, sess') := format_session_auth (c_env C) sess (in_now2 inp) (ep_remainder s) in
  match r with
  | inr _ => Ok (false, sess', s, [])
  | inl frame =>
      let s1 := if is_empty (ep_remainder s) then s else begin_transmit s rest in
      Ok (in_started inp, sess', started s1 inp, [EvTx (TxAuth (taken (ep_remainder s) rest)) frame])
  end.

(** Where the payload of a validated message is, and the buffer afterwards *)
Definition payload_slice (mode : SessionCryptoMode) (gen : nat) (payload : list N) : option slice :=
  match payload with
  | [] => None
  | _ :: _ => Some match mode with hmac_sha256_16 => InMessage gen payload | aes_256_gcm => InBuffer (length payload) end
  end.
Definition buffer_after (mode : SessionCryptoMode) (r : list N + serr) (buffer scratch : list N) : list N :=
  match mode with
  | hmac_sha256_16 => buffer
  | aes_256_gcm => match r with inl payload => payload ++ skipn (length payload) buffer | inr _ => scratch end
  end.
(** The bytes a slice shows; reading a part of a message the lower layer no longer keeps is
    undefined *)
Definition slice_bytes (s : endpoint) (p : slice) : outcome (list N) :=
  match p with
  | InBuffer n => Ok (firstn n (ep_buffer s))
  | InMessage gen bytes => if gen =? ep_generation s then Ok bytes else UB
  end.

(** ILowerLayer.h:49-63 start_rx_from_upper with CryptoLayer.cpp:26-29 and 42-50 *)
Definition start_rx (s : endpoint) : xres :=
  let s1 := if ep_proc s then set_proc (set_payload s None) false else s in
  match ep_payload s1 with
  | None => Ok (s1, [ITryRead], [])
  | Some p => let* bytes := slice_bytes s1 p in Ok (set_proc s1 true, [], [EvRead bytes])
  end.

(** CryptoLayer.cpp:31-40 start_tx_from_upper, 52-61 is_tx_ready, TxState.h:24-28 initialize *)
Definition start_tx (s : endpoint) (data : list N) : xres :=
  if ep_open s && ep_up s && tx_idle s
  then Ok (set_remainder (set_transmitting s false) data, [ICheckTransmit], [EvAccept data])
  else Ok (s, [], [EvReject data]).

(** Initiator.cpp:107-113 and Responder.cpp:37-40 reset_state_on_close_from_lower *)
Definition reset_state_on_close (C : econf) (s : endpoint) : endpoint :=
  match c_role C with
  | Initiator _ => set_required (set_session_timer (set_timer (set_state s Idle) None) false) false
  | Responder _ => set_pending (set_active s (reset (ep_active s))) (reset (ep_pending s))
  end.

(** IUpperLayer.h:26-84 for the crypto layer, with Initiator.cpp:102-105, Responder.h:30,
    CryptoLayer.cpp:86-122, TxState.h:35-45 on_tx_complete *)
Definition enter (C : econf) (s : endpoint) (c : call) : xres :=
  match c with
  | StartTx data => start_tx s data
  | StartRx => start_rx s
  | LowerOpen =>
      if ep_open s then Ok (s, [], [])
      else Ok (set_open s true, match c_role C with Initiator _ => [IHandshakeRequired] | Responder _ => [] end, [EvOpened])
  | LowerClose =>
      if ep_open s then
        let s1 := reset_state_on_close C (set_open s false) in
        let s2 := set_pending (set_active s1 (reset (ep_active s1))) (reset (ep_pending s1)) in
        Ok (set_payload s2 None, [IUpClose; ICloseTail], [EvClosed])
      else Ok (s, [], [])
  | LowerTxReady =>
      let s0 := set_busy s false in
      if ep_open s0 then
        let complete := ep_transmitting s0 && is_empty (ep_remainder s0) in
        Ok (set_transmitting s0 false,
            [IPreTxReady] ++ (if complete then [IUpTxReady] else []) ++ [ITryRead; ICheckTransmit], [])
      else Ok (s0, [], [])
  | LowerRxReady => if ep_open s then Ok (s, [ITryRead], []) else Ok (s, [], [])
  end.

(** CryptoLayer.cpp:130-149 try_read_one_from_lower *)
Definition try_read_one (s : endpoint) (inp : input) : xres :=
  let s1 := asked s inp in
  let q := [EvQuery (in_ready inp)] in
  if negb (in_ready inp) then Ok (s1, [], q)
  else match ep_payload s1 with
       | Some _ => Ok (s1, [], q)
       | None =>
           let s2 := set_generation s1 (S (ep_generation s1)) in
           match in_message inp with
           | [] => Ok (s2, [], q)
           | _ :: _ => Ok (s2, [IProcess (in_message inp); ITryRead], q ++ [EvRecv (in_message inp)])
           end
       end.

(** CryptoLayer.cpp:186-212 check_transmit, CryptoLayer.h:122-133 can_transmit_session_data *)
Definition check_transmit (C : econf) (s : endpoint) (inp : input) : xres :=
  if negb (s_valid (ep_active s)) then Ok (s, [], [])
  else
    let s1 := asked s inp in
    let q := [EvQuery (in_ready inp)] in
    if negb (in_ready inp && tx_ready s1) then Ok (s1, [], q)
    else
      let* (r, rest, active') := format_session_data (c_env C) (ep_active s1) (in_now inp) (ep_remainder s1) in
      match r with
      | inr _ => Ok (set_active s1 (reset active'), [IUpClose], q ++ [EvFail])
      | inl frame =>
          Ok (started (begin_transmit (set_active s1 active') rest) inp, [INonceChange],
              q ++ [EvTx (TxData (taken (ep_remainder s1) rest)) frame])
      end.

Definition is_empty_error (e : serr) : bool := match e with e_empty_user_data => true | _ => false end.

(** CryptoLayer.cpp:246-261 on_session_data *)
Definition on_session_data (C : econf) (s : endpoint) (msg : SessionData) (inp : input) : xres :=
  let mode := s_crypto_mode (ep_active s) in
  let* (r, active', _) := validate_session_data (c_env C) (ep_active s) msg (in_now inp) (c_payload_size C) in
  let s1 := set_buffer (set_active s active') (buffer_after mode r (ep_buffer s) (in_scratch inp)) in
  match r with
  | inr e => Ok (s1, [], if is_empty_error e then [EvEmpty msg] else [])
  | inl payload =>
      Ok (set_payload s1 (payload_slice mode (ep_generation s1) payload), [INonceChange; IUpRxReady],
          [EvDataOk active' msg payload])
  end.

(** Sessions.cpp:21-25 activate_pending *)
Definition activate (s : endpoint) : endpoint := set_pending (set_active s (ep_pending s)) (reset (ep_active s)).

(** ** Initiator *)

(** InitiatorHandshakeStates.cpp:14-61 Idle::on_handshake_required, Initiator.h:46-51 for the other
    states *)
Definition on_handshake_required (C : econf) (c : iconf) (s : endpoint) (inp : input) : xres :=
  match ep_state s with
  | Idle =>
      let s1 := asked s inp in
      let q := [EvQuery (in_ready inp)] in
      if negb (in_ready inp) then Ok (set_required s1 true, [], q)
      else
        let (r, i) := initialize_new_handshake (e_prims (c_env C)) (ic_handshake c) (in_ianswers inp) (ep_ihs s1) in
        let s2 := set_ihs s1 i in
        match r with
        | None => Ok (set_state (start_timer s2 TRetry) WaitForRetry, [], q)
        | Some (mode_ephemeral, mode_data) =>
            match frame_write2 (c_env C) (request_write (make_request (ic_handshake c) (ic_limits c) mode_ephemeral mode_data)) with
            | None => Ok (set_state s2 BadConfiguration, [], q)
            | Some (frame, written) =>
                let s3 := set_ihs s2 (finalize_request_tx (e_prims (c_env C)) written (in_now inp) (ep_ihs s2)) in
                Ok (set_state (start_timer (started s3 inp) TResponse) WaitForBeginReply, [], q ++ [EvTx TxRequest frame])
            end
        end
  | _ => Ok (set_required s true, [], [])
  end.

(** The failure branches of the wait states: start_retry_timer and WaitForRetry *)
Definition retry (s : endpoint) : endpoint := set_state (start_timer s TRetry) WaitForRetry.

(** InitiatorHandshakeStates.cpp:65-82 WaitForBeginReply::on_reply_message; Initiator.cpp:34-38 *)
Definition on_reply_message (C : econf) (c : iconf) (s : endpoint) (msg : ReplyHandshakeBegin) (msg_bytes : list N)
  (inp : input) : xres :=
  match ep_state s with
  | WaitForBeginReply =>
      let s1 := set_timer s None in
      let* (ok, i, pending') := initialize_session (e_prims (c_env C)) (c_supports C) (ic_handshake c) (ep_ihs s1) msg msg_bytes
                                  (ic_limits c) (in_now inp) (ep_pending s1) in
      let s2 := set_pending (set_ihs s1 i) pending' in
      if negb ok then Ok (retry s2, [], [])
      else
        let* (sent, pending'', s3, ev) := transmit_session_auth C s2 pending' inp in
        let s4 := set_pending s3 pending'' in
        if negb sent then Ok (retry s4, [], [EvKeys pending'] ++ ev)
        else Ok (set_state (start_timer s4 TResponse) WaitForAuthReply, [], [EvKeys pending'] ++ ev)
  | _ => Ok (s, [], [])
  end.

(** InitiatorHandshakeStates.cpp:84-90, 135-141; Initiator.cpp:40-44 on_error_message *)
Definition on_error_message (s : endpoint) : xres :=
  match ep_state s with
  | WaitForBeginReply | WaitForAuthReply => Ok (retry (set_timer s None), [], [])
  | _ => Ok (s, [], [])
  end.

(** InitiatorHandshakeStates.cpp:101-133 WaitForAuthReply::on_auth_message; Initiator.cpp:46-50 *)
Definition on_auth_message (C : econf) (s : endpoint) (msg : SessionData) (inp : input) : xres :=
  match ep_state s with
  | WaitForAuthReply =>
      let s1 := set_timer s None in
      let mode := s_crypto_mode (ep_pending s1) in
      let* (r, pending', _) := validate_session_auth (c_env C) (ep_pending s1) msg (in_now inp) (c_payload_size C) in
      let s2 := set_buffer (set_pending s1 pending') (buffer_after mode r (ep_buffer s1) (in_scratch inp)) in
      match r with
      | inr _ => Ok (retry s2, [], [])
      | inl payload =>
          let s3 := start_session_timer (set_required (activate s2) false) in
          Ok (s3, [IUpOpen; IAuthPayload (payload_slice mode (ep_generation s3) payload); ISetState Idle],
              [EvAuthOk pending' msg payload])
      end
  | _ => Ok (s, [], [])
  end.

(** InitiatorHandshakeStates.cpp:92-97, 143-148; Initiator.cpp:52-56 on_response_timeout *)
Definition on_response_timeout (s : endpoint) : endpoint :=
  match ep_state s with WaitForBeginReply | WaitForAuthReply => retry s | _ => s end.

(** InitiatorHandshakeStates.cpp:152-155; Initiator.cpp:58-62 on_retry_timeout *)
Definition on_retry_timeout (s : endpoint) : endpoint :=
  match ep_state s with WaitForRetry => set_state s Idle | _ => s end.

(** Initiator.cpp:127-133 on_session_nonce_change with the nonces of the active session; the
    responder does nothing (CryptoLayer.h:77) *)
Definition on_nonce_change (C : econf) (s : endpoint) : xres :=
  match c_role C with
  | Responder _ => Ok (s, [], [])
  | Initiator c =>
      if (ic_nonce_trigger c <=? N.max (s_tx_nonce (ep_active s)) (s_rx_nonce (ep_active s)))%N
      then Ok (set_session_timer s false, [IHandshakeRequired], [])
      else Ok (s, [], [])
  end.

(** ** Responder *)

(** Responder.cpp:26-35 reply_with_handshake_error *)
Definition reply_error (C : econf) (s : endpoint) (e : HandshakeError) (inp : input) : xres :=
  match error_frame (c_env C) e with
  | None => Ok (s, [], [])
  | Some frame => Ok (started s inp, [], [EvTx TxError frame])
  end.

(** Responder.cpp:64-81 on_message(RequestHandshakeBegin) *)
Definition on_request (C : econf) (h : responder_handshake) (s : endpoint) (msg : RequestHandshakeBegin) (msg_bytes : list N)
  (inp : input) : xres :=
  if negb (major_version (rq_version msg) =? major_version version_get)%N
  then reply_error C s he_unsupported_version inp
  else
    let* (r, pending') := process (c_env C) (c_supports C) h (in_answers inp) msg msg_bytes (in_now inp) (ep_pending s) in
    let s1 := set_pending s pending' in
    match r with
    | inr e => reply_error C s1 e inp
    | inl frame => Ok (started s1 inp, [], [EvKeys pending'; EvTx TxReply frame])
    end.

(** Responder.cpp:83-111 on_auth_session *)
Definition on_auth_session (C : econf) (s : endpoint) (msg : SessionData) (inp : input) : xres :=
  if negb (s_valid (ep_pending s)) then reply_error C s he_no_prior_handshake_begin inp
  else
    let mode := s_crypto_mode (ep_pending s) in
    let* (r, pending', _) := validate_session_auth (c_env C) (ep_pending s) msg (in_now inp) (c_payload_size C) in
    let s1 := set_buffer (set_pending s pending') (buffer_after mode r (ep_buffer s) (in_scratch inp)) in
    match r with
    | inr _ => Ok (s1, [], [])
    | inl payload =>
        let s2 := activate s1 in
        let* (sent, active', s3, ev) := transmit_session_auth C s2 (ep_active s2) inp in
        let s4 := set_active s3 active' in
        if negb sent then Ok (s4, [], [EvAuthOk pending' msg payload] ++ ev ++ [EvNoAnswer])
        else Ok (s4, [IUpOpen; IAuthPayload (payload_slice mode (ep_generation s4) payload)],
                 [EvAuthOk pending' msg payload] ++ ev)
    end.

(** CryptoLayer.cpp:151-184 process, 63-84 handle_message, 236-244 on_message(SessionData);
    Initiator.cpp:115-125 and Responder.cpp:42-51 supports; Responder.cpp:53-62 on_parse_error;
    Initiator.cpp:142-155 *)
Definition process_message (C : econf) (s : endpoint) (message : list N) (inp : input) : xres :=
  match message with
  | [] => Ok (s, [], [])
  | raw_function :: _ =>
      match c_role C, function_from raw_function with
      | Initiator c, Some reply_handshake_begin =>
          match reply_read message with inr _ => Ok (s, [], []) | inl msg => on_reply_message C c s msg message inp end
      | Initiator c, Some reply_handshake_error =>
          match error_read message with inr _ => Ok (s, [], []) | inl _ => on_error_message s end
      | Initiator c, Some session_data =>
          match session_data_read message with
          | inr _ => Ok (s, [], [])
          | inl msg => if (am_nonce (sd_metadata msg) =? 0)%N then on_auth_message C s msg inp else on_session_data C s msg inp
          end
      | Responder h, Some request_handshake_begin =>
          match request_read message with
          | inr _ => reply_error C s he_bad_message_format inp
          | inl msg => on_request C h s msg message inp
          end
      | Responder h, Some session_data =>
          match session_data_read message with
          | inr _ => Ok (s, [], [])
          | inl msg => if (am_nonce (sd_metadata msg) =? 0)%N then on_auth_session C s msg inp else on_session_data C s msg inp
          end
      | _, _ => Ok (s, [], [])
      end
  end.

(** ** The machine *)

(** IUpperLayer.h:26-84 for the upper layer: a notification that is delivered runs the calls the
    application makes in it *)
Definition notify (s : endpoint) (inp : input) (e : event) : xres := Ok (s, map ICall (in_calls inp), [e]).

Definition exec (C : econf) (s : endpoint) (i : instr) (inp : input) : xres :=
  match i with
  | ICall c => enter C s c
  | ITryRead => try_read_one s inp
  | IProcess m => process_message C s m inp
  | ICheckTransmit => check_transmit C s inp
  | IUpOpen => if ep_up s then Ok (s, [], []) else notify (set_up s true) inp EvUpOpen
  | IUpClose => if ep_up s then notify (set_up s false) inp EvUpClose else Ok (s, [], [])
  | IUpTxReady => if ep_up s then notify s inp EvUpTxReady else Ok (s, [], [])
  | IUpRxReady => if ep_up s then notify s inp EvUpRxReady else Ok (s, [], [])
  | IHandshakeRequired =>
      match c_role C with Initiator c => on_handshake_required C c s inp | Responder _ => Ok (s, [], []) end
  | INonceChange => on_nonce_change C s
  | IPreTxReady =>
      match c_role C with
      | Initiator _ => Ok (s, if ep_required s then [IHandshakeRequired] else [], [])
      | Responder _ => Ok (s, [], [])
      end
  | IAuthPayload None => Ok (s, [], [])
  | IAuthPayload (Some p) => Ok (set_payload s (Some p), [IUpRxReady], [])
  | ISetState h => Ok (set_state s h, [], [])
  | ICloseTail =>
      Ok (set_proc (set_remainder (set_transmitting s false) []) (if c_via_stack C then ep_proc s else false), [], [])
  end.

(** What can happen while no call is in progress: a call that enters the endpoint, or the expiry
    of a timer (current, or overwritten while running: Initiator.cpp:71-94) *)
Inductive external := Enter (c : call) | FireTimer | FireStale (n : nat) | FireSession | FireSessionStale.

Definition fire (s : endpoint) (k : rtimer) : endpoint * list instr :=
  match k with
  | TResponse => (on_response_timeout s, [])
  | TRetry => (on_retry_timeout s, [IHandshakeRequired])
  end.

Definition inject (s : endpoint) (e : external) : endpoint * list instr :=
  match e with
  | Enter c => (s, [ICall c])
  | FireTimer => match ep_timer s with Some k => fire (set_timer s None) k | None => (s, []) end
  | FireStale n =>
      match nth_error (ep_stale s) n with
      | Some k => fire (set_stale s (firstn n (ep_stale s) ++ skipn (S n) (ep_stale s))) k
      | None => (s, [])
      end
  | FireSession => if ep_session_timer s then (set_session_timer s false, [IHandshakeRequired]) else (s, [])
  | FireSessionStale =>
      match ep_session_stale s with S n => (set_session_stale s n, [IHandshakeRequired]) | O => (s, []) end
  end.

(** A label is an external event or the environment's answers for the next step.  A label that
    does not apply (an external event while a call is in progress, a step while none is) changes
    nothing. *)
Inductive label := Ext (e : external) | Run (inp : input).
Definition config := (endpoint * list instr)%type.

Definition step (C : econf) (k : config) (l : label) : outcome (config * list event) :=
  match l, snd k with
  | Ext e, [] => Ok (inject (fst k) e, [])
  | Run inp, i :: rest => let* (s, pushed, ev) := exec C (fst k) i inp in Ok ((s, pushed ++ rest), ev)
  | _, _ => Ok (k, [])
  end.

Fixpoint run (C : econf) (k : config) (ls : list label) : outcome (config * list event) :=
  match ls with
  | [] => Ok (k, [])
  | l :: ls' =>
      let* (k1, e1) := step C k l in
      let* (k2, e2) := run C k1 ls' in
      Ok (k2, e1 ++ e2)
  end.
