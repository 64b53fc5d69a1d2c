(** * Resume: the initiator tries again over the connection it has

    Initiator.cpp:69-95: when no answer comes, the response timer expires
    (InitiatorHandshakeStates.cpp:92-97, 143-148: the initiator waits for the retry timer); when that
    one expires, another handshake begins (InitiatorHandshakeStates.cpp:152-155, Initiator.cpp:58-62,
    80-84); when a session has lasted long enough, the session timer expires (Initiator.cpp:86-95).
    The connection stays open.

    The line is that of Line.  Times, messages and what happens are counted from the expiry on; of the
    past, the trace only contains that the application was told that the layer is open, if that is so. *)
From Verif Require Import Base Codec Link LinkLayer Primitives Session SessionSpec Handshake Endpoint EndpointSpec PairSpec Line.

(** The timers of the initiator expire until it does something (Initiator.cpp:69-95) *)
Definition expire (s : endpoint) : config :=
  match ep_state s with
  | Idle => inject s FireSession
  | WaitForBeginReply | WaitForAuthReply => inject (fst (inject s FireTimer)) FireTimer
  | WaitForRetry | BadConfiguration => inject s FireTimer
  end.
Definition resume_side (k : config) : side :=
  {| d_conf := k; d_trace := if ep_up (fst k) then [EvUpOpen] else []; d_out := []; d_taken := 0; d_owed := false |}.
Definition resumed (sa sb : endpoint) : line := {| l_now := 0; l_a := resume_side (expire sa); l_b := resume_side (sb, []) |}.
