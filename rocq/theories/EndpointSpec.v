(** * EndpointSpec: what the endpoint properties mean

    The properties are statements about the sequence of events between an endpoint and its
    neighbours.  Most are small automata: [play f a t] is the state of the automaton [f] after the
    events [t], or [None] when the sequence is not allowed. *)
From Verif Require Import Base Codec CodecSpec Link LinkLayer Primitives Session SessionSpec Handshake Endpoint.

Fixpoint play {A} (f : A -> event -> option A) (a : A) (t : list event) : option A :=
  match t with
  | [] => Some a
  | e :: t' => match f a e with Some a' => play f a' t' | None => None end
  end.

(** A condition on what the environment does, at every step of a run *)
Fixpoint along (Q : config -> label -> Prop) (C : econf) (k : config) (ls : list label) : Prop :=
  match ls with
  | [] => True
  | l :: ls' => Q k l /\ match step C k l with Ok (k', _) => along Q C k' ls' | _ => True end
  end.

(** ** Notifications of the upper layer: open and close alternate, starting with open; the others
    come while it is open.  The state is "open". *)
Definition notifications (up : bool) (e : event) : option bool :=
  match e with
  | EvUpOpen => if up then None else Some true
  | EvUpClose => if up then Some false else None
  | EvUpTxReady | EvUpRxReady => if up then Some up else None
  | _ => Some up
  end.

(** ** Authenticity *)

(** The message opens under the key: the tag is the truncated HMAC of metadata, length and user
    data, or AES-GCM decrypts it. *)
Definition authentic (P : prims) (mode : SessionCryptoMode) (key : list N) (m : SessionData) (payload : list N) : Prop :=
  match mode with
  | hmac_sha256_16 =>
      payload = sd_user_data m /\
      sd_auth_tag m = firstn 16 (p_hmac P key (wire_metadata (sd_metadata m) ++
                                   be_bytes 2 (N.of_nat (length (sd_user_data m)) mod 65536) ++ sd_user_data m))
  | aes_256_gcm =>
      p_gcm_decrypt P key (gcm_iv (am_nonce (sd_metadata m))) (wire_metadata (sd_metadata m)) (sd_user_data m)
        (firstn 16 (sd_auth_tag m)) = Some payload
  end.

(** Two states of the same session: all but the nonces *)
Definition same_session (a b : session) : Prop :=
  s_valid a = s_valid b /\ s_keys a = s_keys b /\ s_nonce_mode a = s_nonce_mode b /\
  s_crypto_mode a = s_crypto_mode b /\ s_param a = s_param b.

(** The last message taken from the lower layer, and the last keys derived by a handshake *)
Fixpoint last_received (t : list event) (d : list N) : list N :=
  match t with [] => d | EvRecv m :: t' => last_received t' m | _ :: t' => last_received t' d end.
Fixpoint last_derived (t : list event) (d : option session) : option session :=
  match t with [] => d | EvKeys s :: t' => last_derived t' (Some s) | _ :: t' => last_derived t' d end.
(** The session of the last completed handshake *)
Fixpoint last_established (t : list event) (d : option session) : option session :=
  match t with [] => d | EvAuthOk s _ _ :: t' => last_established t' (Some s) | _ :: t' => last_established t' d end.

(** Events by which an established session ends or is replaced *)
Definition ends_session (e : event) : bool :=
  match e with EvAuthOk _ _ _ | EvFail | EvClosed => true | _ => false end.

(** [every P past t]: each event of [t] satisfies [P] together with the events before it *)
Fixpoint every (P : list event -> event -> Prop) (past t : list event) : Prop :=
  match t with [] => True | e :: t' => P past e /\ every P (past ++ [e]) t' end.

Definition is_auth_tx (e : event) : bool := match e with EvTx (TxAuth _) _ => true | _ => false end.

(** What must have happened before: the upper layer is opened right after a message authenticated
    the new session (the responder sends its own authentication in between); a message is accepted
    as authentication if it is the message received last, has nonce zero, and opens under the keys
    derived last; a message is accepted as data if it is the message received last and opens under
    the keys of the session established last, and so is a message that advances the nonce without
    delivering anything (it is empty). *)
Definition justified (P : prims) (past : list event) (e : event) : Prop :=
  match e with
  | EvUpOpen => exists t0 s m p rest, past = t0 ++ EvAuthOk s m p :: rest /\ forallb is_auth_tx rest = true
  | EvAuthOk s m p =>
      session_data_read (last_received past []) = inl m /\ am_nonce (sd_metadata m) = 0%N /\
      authentic P (s_crypto_mode s) (k_rx (s_keys s)) m p /\
      exists d, last_derived past None = Some d /\ same_session d s /\ s_valid s = true
  | EvDataOk s m p =>
      session_data_read (last_received past []) = inl m /\ am_nonce (sd_metadata m) <> 0%N /\ p <> [] /\
      authentic P (s_crypto_mode s) (k_rx (s_keys s)) m p /\
      exists d, last_established past None = Some d /\ same_session d s /\ s_valid s = true
  | EvEmpty m =>
      session_data_read (last_received past []) = inl m /\ am_nonce (sd_metadata m) <> 0%N /\
      exists d, last_established past None = Some d /\ authentic P (s_crypto_mode d) (k_rx (s_keys d)) m []
  | _ => True
  end.

(** ** Replay: the nonces of the messages accepted in one session.  The state is the nonce mode,
    the largest nonce allowed and the last nonce accepted. *)
Definition nonces (st : option (SessionNonceMode * N * N)) (e : event) : option (option (SessionNonceMode * N * N)) :=
  match e with
  | EvAuthOk s m _ =>
      if (am_nonce (sd_metadata m) =? 0)%N then Some (Some (s_nonce_mode s, p_max_nonce (s_param s), 0%N)) else None
  | EvDataOk _ m _ | EvEmpty m =>
      match st with
      | None => None
      | Some (mode, max, last) =>
          let n := am_nonce (sd_metadata m) in
          if ((n <=? max) && match mode with strict_increment => n =? last + 1 | greater_than_last_rx => last <? n end)%N
          then Some (Some (mode, max, n)) else None
      end
  | _ => Some st
  end.

(** ** Receiving: the payload held for the application, and whether it was read already *)
Definition delivery (held : option (list N * bool)) (e : event) : option (option (list N * bool)) :=
  match e with
  | EvAuthOk _ _ p | EvDataOk _ _ p =>
      match held with
      | None => Some (match p with [] => None | _ => Some (p, false) end)
      | Some _ => None
      end
  | EvRead d =>
      match held with Some (p, false) => if bytes_eqb p d then Some (Some (p, true)) else None | _ => None end
  | EvRecv _ => match held with Some (_, false) => None | _ => Some None end
  | EvNoAnswer | EvClosed => Some None
  | _ => Some held
  end.

(** Only the contents: what is read is the payload accepted last *)
Definition contents (last : option (list N)) (e : event) : option (option (list N)) :=
  match e with
  | EvAuthOk _ _ (b :: p) | EvDataOk _ _ (b :: p) => Some (Some (b :: p))
  | EvRead d => match last with Some p => if bytes_eqb p d then Some last else None | None => None end
  | _ => Some last
  end.

(** ** Transmitting: what remains of the buffer accepted last *)
Definition sending (left : list N) (e : event) : option (list N) :=
  match e with
  | EvAccept d => match left with [] => Some d | _ => None end
  | EvTx (TxData c) _ =>
      match c with
      | [] => None
      | _ => if bytes_eqb c (firstn (length c) left) then Some (skipn (length c) left) else None
      end
  | EvTx (TxAuth c) _ => if bytes_eqb c (firstn (length c) left) then Some (skipn (length c) left) else None
  | EvUpTxReady => match left with [] => Some [] | _ => None end
  | EvClosed => Some []
  | _ => Some left
  end.

(** Is the application owed a notification?  It is after a buffer was accepted, until it is told
    that it may transmit again or that the layer closed. *)
Definition owing (t : list event) : bool :=
  fold_left (fun b e => match e with EvAccept (_ :: _) => true | EvUpTxReady | EvUpClose => false | _ => b end) t false.
(** "Ready to transmit" is told only once for each buffer that was accepted and not empty.  The state: the buffer accepted
    last is not empty and "ready" was not told since. *)
Definition readying (owed : bool) (e : event) : option bool :=
  match e with
  | EvAccept d => Some (match d with [] => false | _ => true end)
  | EvUpTxReady => if owed then Some false else None
  | _ => Some owed
  end.
Definition is_fail (e : event) : bool := match e with EvFail => true | _ => false end.

(** ** The frames: which key and which nonce protects the data.
    [used initiator t]: how many messages were sent under the keys derived last and under the keys
    of the session established last.  The initiator authenticates with the new keys before the
    session is established, the responder afterwards. *)
Definition used1 (initiator : bool) (u : N * N) (e : event) : N * N :=
  match e with
  | EvKeys _ => (0, snd u)%N
  | EvAuthOk _ _ _ => (0, fst u)%N
  | EvTx (TxAuth _) _ => if initiator then (fst u + 1, snd u)%N else (fst u, snd u + 1)%N
  | EvTx (TxData _) _ => (fst u, snd u + 1)%N
  | _ => u
  end.
Definition used (initiator : bool) (t : list event) : N * N := fold_left (used1 initiator) t (0, 0)%N.
Definition is_initiator (C : econf) : bool := match c_role C with Initiator _ => true | Responder _ => false end.

(** A data frame is protected by the keys of the session established last and has as nonce the
    number of messages sent under them; an authentication frame has nonce zero and is the first
    under its keys. *)
Definition sealed (C : econf) (past : list event) (e : event) : Prop :=
  match e with
  | EvTx (TxData c) f =>
      exists d md, last_established past None = Some d /\ carries (c_env C) (s_crypto_mode d) (k_tx (s_keys d)) f md c /\
        am_nonce md = snd (used (is_initiator C) past) /\ (am_nonce md < p_max_nonce (s_param d))%N
  | EvTx (TxAuth c) f =>
      exists d md, (if is_initiator C then last_derived past None else last_established past None) = Some d /\
        carries (c_env C) (s_crypto_mode d) (k_tx (s_keys d)) f md c /\ am_nonce md = 0%N /\
        0%N = (if is_initiator C then fst else snd) (used (is_initiator C) past)
  | _ => True
  end.

(** ** After the connection is closed: until a new handshake completes, no data is sent or
    delivered and the application is told nothing but the close itself.  The state is "no session
    was established since the connection was closed". *)
Definition wiped (w : bool) (e : event) : option bool :=
  match e with
  | EvClosed => Some true
  | EvAuthOk _ _ _ => Some false
  | EvTx (TxData _) _ | EvTx (TxAuth (_ :: _)) _ | EvAccept _ | EvRead _ | EvDataOk _ _ _ | EvEmpty _
  | EvUpOpen | EvUpTxReady | EvUpRxReady | EvFail => if w then None else Some w
  | _ => Some w
  end.

(** ** The environment *)

(** The lower layer keeps its promises (ILowerLayer.h:20-46): it is ready exactly when no
    transmission is in progress, a transmission started while it is ready succeeds; and it has no
    messages while it is closed. *)
Definition lower_ok (k : config) (l : label) : Prop :=
  match l with
  | Run inp =>
      in_ready inp = negb (ep_busy (fst k)) /\ (ep_busy (fst k) = false -> in_started inp = true) /\
      (ep_open (fst k) = false -> in_message inp = [])
  | _ => True
  end.
(** Only the last of these *)
Definition quiet_when_closed (k : config) (l : label) : Prop :=
  match l with Run inp => ep_open (fst k) = false -> in_message inp = [] | _ => True end.

(** A handshake is being completed: the upper layer is being told that the layer is open
    ([opening]), or that the data that came with the handshake is there *)
Definition opening (i : instr) : bool := match i with IAuthPayload _ => true | _ => false end.
Definition completing (i : instr) : bool := match i with IAuthPayload _ | ISetState _ => true | _ => false end.
Definition is_start_tx (c : call) : bool := match c with StartTx _ => true | _ => false end.
Definition app_call (c : call) : bool := match c with StartTx _ | StartRx => true | _ => false end.
Definition app_or_close (c : call) : bool := match c with StartTx _ | StartRx | LowerClose => true | _ => false end.

(** The application inside a notification calls only the endpoint or closes the connection, and
    inside the notification that the layer is open it only transmits. *)
Definition calm_open (k : config) (l : label) : Prop :=
  match l with
  | Run inp =>
      forallb app_or_close (in_calls inp) = true /\
      (existsb opening (snd k) = true -> forallb is_start_tx (in_calls inp) = true)
  | _ => True
  end.
(** Only the first condition *)
Definition from_outside (k : config) (l : label) : Prop :=
  match l with Run inp => forallb app_or_close (in_calls inp) = true | _ => True end.
(** Only the second condition *)
Definition opens_quietly (k : config) (l : label) : Prop :=
  match l with
  | Run inp => existsb opening (snd k) = true -> forallb is_start_tx (in_calls inp) = true
  | _ => True
  end.
(** A well-behaved application over a lower layer that is silent when closed *)
Definition reader_ok (k : config) (l : label) : Prop := calm_open k l /\ quiet_when_closed k l.
(** Moreover, until the handshake is completed (inside the notification of the data that came with
    it), the application does not close the connection and no further message is taken from the
    lower layer. *)
Definition calm (k : config) (l : label) : Prop :=
  calm_open k l /\
  match l with
  | Run inp =>
      existsb completing (snd k) = true ->
        forallb app_call (in_calls inp) = true /\ (hd_error (snd k) = Some ITryRead -> in_ready inp = true -> in_message inp = [])
  | _ => True
  end.

(** ** The initiator's timers *)

(** No call is in progress *)
Definition quiescent (k : config) : Prop := snd k = [].

(** Something will make the initiator go on: a timer for its state, the end of a transmission, or
    nothing because its configuration is bad. *)
Definition alive (s : endpoint) : Prop :=
  match ep_state s with
  | WaitForBeginReply | WaitForAuthReply => ep_timer s = Some TResponse
  | WaitForRetry => ep_timer s = Some TRetry
  | Idle => ep_session_timer s = true \/ (ep_required s = true /\ ep_busy s = true)
  | BadConfiguration => True
  end.
(** At most one response or retry timer is running, and only in the state it was started for; the
    same for the session timer *)
Definition one_timer (s : endpoint) : Prop :=
  ep_stale s = [] /\ ep_session_stale s = 0 /\
  match ep_timer s with
  | None => True
  | Some TResponse => ep_state s = WaitForBeginReply \/ ep_state s = WaitForAuthReply
  | Some TRetry => ep_state s = WaitForRetry
  end.

(** The application reads, or the connection is closed *)
Definition reads_or_closes (l : label) : bool := match l with Ext (Enter (StartRx | LowerClose)) => true | _ => false end.
(** Something is received, or the application is told something *)
Definition heard (e : event) : bool :=
  match e with EvRecv _ | EvRead _ | EvUpOpen | EvUpClose | EvUpTxReady | EvUpRxReady | EvAuthOk _ _ _ | EvDataOk _ _ _ => true | _ => false end.

