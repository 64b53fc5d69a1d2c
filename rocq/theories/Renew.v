(** * Renew: the initiator renews its session over a reliable line

    Initiator.cpp:86-95: when the session has lasted for the configured time, the session timer expires
    and the initiator begins another handshake over the connection it has (Initiator.cpp:97-100
    on_handshake_required, InitiatorHandshakeStates.cpp:14-61).  The old session stays the active one
    (Sessions.h:27-52, CryptoLayer.cpp:186-212) until the new one is authenticated
    (InitiatorHandshakeStates.cpp:101-133, Responder.cpp:83-111, Sessions.cpp:21-25).

    The line is that of Line; the timer expires here while nothing is under way.  Times, messages and
    the number of messages are counted from there on; what has happened is kept. *)
From Verif Require Import Base Codec Link LinkLayer Primitives Session SessionSpec Handshake Endpoint EndpointSpec PairSpec Line.

Definition renew_side (d : side) (k : config) : side :=
  {| d_conf := k; d_trace := d_trace d; d_out := []; d_taken := 0; d_owed := d_owed d |}.
(** The session timer of the initiator expires (Initiator.cpp:86-95) *)
Definition renewing (x : line) : line :=
  {| l_now := 0; l_a := renew_side (l_a x) (inject (fst (d_conf (l_a x))) FireSession); l_b := renew_side (l_b x) (d_conf (l_b x)) |}.

(** The same two endpoints, later: what the random generators and the key stores answer, the delays, the
    number of messages and the duration may be others; the clocks have gone on *)
Definition follows (L : net) (x : line) (L' : net) : Prop :=
  n_ca L' = n_ca L /\ n_cb L' = n_cb L /\ n_oa L' = (n_oa L + l_now x)%Z /\ n_ob L' = (n_ob L + l_now x)%Z.
