(** * RenewSpec: a connection over which the session is renewed any number of times

    [era c h L renewing x]: the two endpoints and the line can get into the state [x].  [L] describes the
    line since the current session, or the one that is being agreed on, was begun.  While a session is
    renewed ([renewing] is true) the applications offer no data (LineSpec [line_calm]); they may read.
    The session timer of the initiator expires while nothing is left to do for either side.

    It all begins with a new connection, or with an open connection over which anything may have
    happened before, when the timers of the initiator expire. *)
From Verif Require Import Base Codec Link LinkLayer Primitives Session SessionSpec Handshake Endpoint EndpointSpec PairSpec Line LineSpec RecoverSpec Renew Resume.

(** The connection of an endpoint is open and nothing is under way: no transmission, no data to be
    sent, no data to be read, no further handshake asked for.  Nothing is said about the sessions, the
    keys, the state of the handshake or what the application was told. *)
Definition undisturbed (s : endpoint) : Prop :=
  ep_open s = true /\ ep_busy s = false /\ ep_payload s = None /\ ep_proc s = false /\ ep_remainder s = [] /\ ep_transmitting s = false /\ ep_required s = false.
(** The timer for the state of the initiator is running *)
Definition due (s : endpoint) : Prop :=
  match ep_state s with
  | Idle => ep_session_timer s = true
  | WaitForBeginReply | WaitForAuthReply => ep_timer s = Some TResponse
  | WaitForRetry => ep_timer s = Some TRetry
  | BadConfiguration => False
  end.

Inductive era (c : iconf) (h : responder_handshake) : net -> bool -> line -> Prop :=
| era_new L : compatible L c h -> era c h L false (new_line L)
| era_resumed L sa sb : compatible L c h -> undisturbed sa -> undisturbed sb -> due sa -> era c h L true (resumed sa sb)
| era_step L x y : era c h L false x -> line_step L x y -> era c h L false y
| era_expired L x L' : era c h L false x -> at_rest (l_a x) -> at_rest (l_b x) -> ep_session_timer (fst (d_conf (l_a x))) = true ->
    follows L x L' -> compatible L' c h -> era c h L' true (renewing x)
| era_quiet L x y : era c h L true x -> line_calm L x y -> era c h L true y
| era_renewed L x : era c h L true x -> at_rest (l_a x) -> at_rest (l_b x) -> era c h L false x.

(** The session in use on both sides was begun under [L]: not before its time 0, on the clocks of the two sides *)
Definition session_since (L : net) (x : line) : Prop :=
  s_valid (ep_active (fst (d_conf (l_a x)))) = true /\ s_valid (ep_active (fst (d_conf (l_b x)))) = true /\
  (n_oa L <= p_start (s_param (ep_active (fst (d_conf (l_a x))))))%Z /\ (n_ob L <= p_start (s_param (ep_active (fst (d_conf (l_b x))))))%Z.
(** Enough messages for what the applications have given to their endpoints so far; while the session is
    renewed, enough for the handshake *)
Definition enough (L : net) (renewing : bool) (x : line) : Prop :=
  if renewing then 2 <= n_limit L else room L (l_a x) /\ room L (l_b x).

(** ** An open connection after any history *)
(** A state the endpoint can be in after any history (RecoverSpec [fair]: the layers around it keep
    their promises; nothing is assumed about the messages that arrived or got lost, the times, the timers
    that expired, the randomness or the order of calls), when no call is in progress *)
Definition after_history (C : econf) (s : endpoint) : Prop :=
  exists ls t, along fair C (new_endpoint C, []) ls /\ run C (new_endpoint C, []) ls = Ok ((s, []), t).
(** It has no session and its application knows that *)
Definition without_session (s : endpoint) : Prop := s_valid (ep_active s) = false /\ ep_up s = false.
(** What can happen after the timers of the initiator expired in the state [x0] and the line became
    reliable, with any number of renewals *)
Inductive since (x0 : line) (c : iconf) (h : responder_handshake) (L : net) : net -> bool -> line -> Prop :=
| since_start : since x0 c h L L true x0
| since_step L' x y : since x0 c h L L' false x -> line_step L' x y -> since x0 c h L L' false y
| since_expired L' x L'' : since x0 c h L L' false x -> at_rest (l_a x) -> at_rest (l_b x) -> ep_session_timer (fst (d_conf (l_a x))) = true ->
    follows L' x L'' -> compatible L'' c h -> since x0 c h L L'' true (renewing x)
| since_quiet L' x y : since x0 c h L L' true x -> line_calm L' x y -> since x0 c h L L' true y
| since_renewed L' x : since x0 c h L L' true x -> at_rest (l_a x) -> at_rest (l_b x) -> since x0 c h L L' false x.
