(** * TunnelSpec: what two proxies do for their clients *)
From Verif Require Import Base Codec Link LinkLayer Primitives Session SessionSpec Handshake Endpoint EndpointSpec PairSpec Line LineSpec Tunnel.

(** Nothing is left to do for a proxy: the lower layer was opened, is not transmitting and has nothing
    to report, no call is in progress, no data is being written to the client, and if the socket is
    being read there is nothing to read *)
Definition proxy_at_rest (p : station) : Prop :=
  snd (d_conf (t_side p)) = [] /\ ep_open (fst (d_conf (t_side p))) = true /\ ep_busy (fst (d_conf (t_side p))) = false /\
  d_owed (t_side p) = false /\ t_tx p = None /\ (t_rx p = true -> t_in p = []).

(** Everything either client has sent has reached the other one *)
Definition all_through (x : tunnel) : Prop := t_out (u_b x) = t_sent (u_a x) /\ t_out (u_a x) = t_sent (u_b x).

(** Whatever the proxies do and in whichever order, [P] holds in the end *)
Inductive tunnel_inevitable (L : net) (P : tunnel -> Prop) (x : tunnel) : Prop :=
| ti_now : P x -> tunnel_inevitable L P x
| ti_next : (exists y, tunnel_calm L x y) -> (forall y, tunnel_calm L x y -> tunnel_inevitable L P y) -> tunnel_inevitable L P x.

(** The session has room for what the client has sent, even if it is sent byte by byte *)
Definition has_room (L : net) (p : station) : Prop := 2 + length (t_sent p) <= n_limit L.
(** No message gets too old before the deadline, and the session does not end before *)
Definition tunnel_in_time (L : net) (deadline : Z) (x : tunnel) : Prop :=
  in_time L deadline {| l_now := u_now x; l_a := t_side (u_a x); l_b := t_side (u_b x) |}.

(** The buffers: the data being written to the client is still the data the stack handed out (the
    concatenation of all of it is what the stack handed out so far), and the buffer of the socket is
    not read into while the stack still needs it *)
Definition buffers_kept (p : station) : Prop :=
  match t_tx p with
  | None => t_out p = got (t_side p)
  | Some sl => exists bytes, slice_bytes (fst (d_conf (t_side p))) sl = Ok bytes /\ bytes <> [] /\ t_out p ++ bytes = got (t_side p)
  end /\
  (t_rx p = true -> ep_remainder (fst (d_conf (t_side p))) = []).
(** Nothing a client has sent was refused by the stack *)
Definition never_refused (p : station) : Prop := forall data, ~ In (EvReject data) (d_trace (t_side p)).
