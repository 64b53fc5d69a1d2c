(** * RecoverSpec: an endpoint whose connection was closed

    Whatever happened to an endpoint before (any number of connections, handshakes that succeeded,
    failed or were abandoned, data in both directions, hostile messages, transmissions that were in
    progress, timers that expired): if its connection was closed in the end, what it does over a new
    connection is what a new endpoint would do. *)
From Verif Require Import Base Codec Link LinkLayer Primitives Session SessionSpec Handshake Endpoint EndpointSpec Line.

(** The environment of the past: the application inside a notification only calls the endpoint or
    closes the connection, and does not until a handshake is completed (EndpointSpec [calm]); the
    lower layer keeps its promises (EndpointSpec [lower_ok]).  Nothing is assumed about the messages
    that arrived, the times, the randomness or the order of calls. *)
Definition fair (k : config) (l : label) : Prop := calm k l /\ lower_ok k l.

(** A state the endpoint can be in after any history, when no call is in progress and the connection is
    closed *)
Definition disconnected (C : econf) (s : endpoint) : Prop :=
  (exists ls t, along fair C (new_endpoint C, []) ls /\ run C (new_endpoint C, []) ls = Ok ((s, []), t)) /\ ep_open s = false.

(** An application that reads through the stack object has read until there was nothing left: its last
    call of start_rx_from_upper returned nothing.  (The flag of the stack object survives the close.)
    Nothing is required of an application that is bound to the crypto layer itself. *)
Definition drained (C : econf) (s : endpoint) : Prop := c_via_stack C = true -> ep_proc s = false.
