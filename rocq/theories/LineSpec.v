(** * LineSpec: what two endpoints over a reliable line do for the applications *)
From Verif Require Import Base Codec CodecSpec Link LinkLayer Primitives Session SessionSpec Handshake HandshakeSpec Endpoint EndpointSpec PairSpec Line.

(** The two endpoints can talk to each other: they are configured for each other; their frames are
    large enough for the handshake and for 1024 bytes of data (C20); their receive buffers are large
    enough; the time to live of the messages is at least twice the delay of the line (the two sides
    may disagree on the start of the session by one delay) plus the millisecond to which it is rounded;
    the conversation is over before the session ends and before the initiator wants a new session.  *)
Record compatible (L : net) (c : iconf) (h : responder_handshake) : Prop := {
  co_roles : c_role (n_ca L) = Initiator c /\ c_role (n_cb L) = Responder h;
  co_prims : prims_ok (e_prims (c_env (n_ca L))) /\ e_prims (c_env (n_cb L)) = e_prims (c_env (n_ca L));
  co_frames : (1051 <= e_max_payload (c_env (n_ca L)) < 65536)%N /\ (1051 <= e_max_payload (c_env (n_cb L)) < 65536)%N;
  co_buffers : 1024 <= c_payload_size (n_ca L) < N.to_nat 65536 /\ 1024 <= c_payload_size (n_cb L) < N.to_nat 65536;
  co_sides : initiator_ok (ic_handshake c) /\ responder_ok h /\ limits_ok (ic_limits c) /\ ianswers_ok (n_ia L) /\ answers_ok (n_ans L);
  co_keys : configured (e_prims (c_env (n_ca L))) (n_ia L) (n_ans L) (ic_handshake c) h /\
    dh_works (e_prims (c_env (n_ca L))) (ic_handshake c) h (ia_random (n_ia L)) (ans_random (n_ans L));
  co_backends : initiator_constructible (c_supports (n_cb L)) (ic_handshake c) = true /\
    sup_ed25519 (c_supports (n_ca L)) = true /\ sup_ed25519 (c_supports (n_cb L)) = true;
  co_messages : (forall ephemeral data i, initialize_new_handshake (e_prims (c_env (n_ca L))) (ic_handshake c) (n_ia L) new_ihs = (Some (ephemeral, data), i) ->
      fits (c_env (n_ca L)) (length (wire_request (make_request (ic_handshake c) (ic_limits c) ephemeral data)))) /\
    fits (c_env (n_cb L)) (length (wire_reply (the_reply (c_env (n_cb L)) h (n_ans L))));
  co_delay : (0 <= n_delay L)%Z /\ (2 * n_delay L + 1000000 <= Z.of_N (e_ttl_pad_ms (c_env (n_ca L))) * 1000000)%Z /\
    (2 * n_delay L + 1000000 <= Z.of_N (e_ttl_pad_ms (c_env (n_cb L))) * 1000000)%Z;
  co_end : (n_end L + Z.of_N (e_ttl_pad_ms (c_env (n_ca L))) * 1000000 <= Z.of_N (l_max_time_ms (ic_limits c)) * 1000000)%Z /\
    (n_end L + Z.of_N (e_ttl_pad_ms (c_env (n_cb L))) * 1000000 <= Z.of_N (l_max_time_ms (ic_limits c)) * 1000000)%Z;
  co_limit : (N.of_nat (n_limit L) <= l_max_nonce (ic_limits c))%N /\ (N.of_nat (n_limit L) <= ic_nonce_trigger c)%N }.

(** Nothing is left to do for a side: it was opened, no call is in progress, its lower layer is not
    transmitting and has no messages to report, and its application has read what there was. *)
Definition at_rest (d : side) : Prop :=
  ep_open (fst (d_conf d)) = true /\ snd (d_conf d) = [] /\ ep_busy (fst (d_conf d)) = false /\ d_owed d = false /\ ep_payload (fst (d_conf d)) = None.

(** What an application gave to its endpoint and what it got from it, as streams of bytes *)
Definition given (d : side) : list N := concat (offered (d_trace d)).
Definition got (d : side) : list N := concat (read_data (d_trace d)).
(** The upper layer was told that the layer is open *)
Definition told_open (d : side) : Prop := In EvUpOpen (d_trace d) /\ ~ In EvUpClose (d_trace d).

(** ** Delivery within bounded time *)
(** The steps in which the applications offer nothing new: the lower layers do what they have to, the
    endpoints run, and the applications read what there is to read (at any time, and also inside a
    notification) *)
Inductive side_calm (L : net) (C : econf) (off : Z) (out : list (Z * list N)) (now : Z) (d : side) : side -> Z -> Prop :=
| sc_open : snd (d_conf d) = [] -> ep_open (fst (d_conf d)) = false -> side_calm L C off out now d (call_in d LowerOpen (d_owed d)) now
| sc_sent : snd (d_conf d) = [] -> ep_busy (fst (d_conf d)) = true -> side_calm L C off out now d (call_in d LowerTxReady (d_owed d)) now
| sc_arrived : snd (d_conf d) = [] -> ep_open (fst (d_conf d)) = true -> d_owed d = true -> side_calm L C off out now d (call_in d LowerRxReady false) now
| sc_read : snd (d_conf d) = [] -> ep_payload (fst (d_conf d)) <> None -> side_calm L C off out now d (call_in d StartRx (d_owed d)) now
| sc_run s i rest inp t1 t2 s' pushed ev ms :
    d_conf d = (s, i :: rest) -> (now <= t1 <= t2)%Z -> (t2 <= n_end L)%Z -> answers_step L off out d i inp t1 t2 ->
    in_calls inp = [] \/ in_calls inp = [StartRx] ->
    exec C s i inp = Ok (s', pushed, ev) ->
    Forall2 (fun f m => f = frame_of (e_kind (c_env C)) m) (frames ev) ms -> length (d_out d) + length ms <= n_limit L ->
    side_calm L C off out now d
      {| d_conf := (s', pushed ++ rest); d_trace := d_trace d ++ ev; d_out := d_out d ++ map (pair t1) ms; d_taken := d_taken d + takes ev; d_owed := d_owed d |} t2.
Inductive line_calm (L : net) (x : line) : line -> Prop :=
| lc_a a' now' : side_calm L (n_ca L) (n_oa L) (d_out (l_b x)) (l_now x) (l_a x) a' now' ->
    line_calm L x {| l_now := now'; l_a := a'; l_b := informed (d_out (l_a x)) (d_out a') (l_b x) |}
| lc_b b' now' : side_calm L (n_cb L) (n_ob L) (d_out (l_a x)) (l_now x) (l_b x) b' now' ->
    line_calm L x {| l_now := now'; l_a := informed (d_out (l_b x)) (d_out b') (l_a x); l_b := b' |}.

(** Whichever of these steps are made and in whichever order, [P] holds in the end: some step can be
    made until it does, and it cannot be put off forever *)
Inductive inevitable (L : net) (P : line -> Prop) (x : line) : Prop :=
| iv_now : P x -> inevitable L P x
| iv_next : (exists y, line_calm L x y) -> (forall y, line_calm L x y -> inevitable L P y) -> inevitable L P x.

(** The messages a side has not finished with *)
Definition unprocessed (out : list (Z * list N)) (d : side) : list (Z * list N) :=
  skipn (d_taken d - match snd (d_conf d) with IProcess _ :: _ => 1 | _ => 0 end) out.
(** The data in the calls of start_tx_from_upper that are in progress *)
Definition in_progress (k : list instr) : nat := fold_right (fun i n => match i with ICall (StartTx d) => length d | _ => 0 end + n) 0 k.
(** The number of messages suffices, even if the data is sent byte by byte: two for the handshake, and the data *)
Definition room (L : net) (d : side) : Prop := 2 + length (given d) + in_progress (snd (d_conf d)) <= n_limit L.
(** No message gets too old before the deadline, and the session does not end before *)
Definition in_time (L : net) (deadline : Z) (x : line) : Prop :=
  (deadline <= n_end L)%Z /\ (deadline <= l_now x + n_delay L)%Z /\
  Forall (fun m => deadline <= fst m + n_delay L)%Z (unprocessed (d_out (l_b x)) (l_a x)) /\
  Forall (fun m => deadline <= fst m + n_delay L)%Z (unprocessed (d_out (l_a x)) (l_b x)).
Definition all_delivered (x : line) : Prop :=
  at_rest (l_a x) /\ at_rest (l_b x) /\ given (l_a x) = got (l_b x) /\ given (l_b x) = got (l_a x) /\ told_open (l_a x) /\ told_open (l_b x).
