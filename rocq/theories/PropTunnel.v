(** * C49: two TCP proxies back to back are a transparent pipe *)
From Verif Require Import Base BaseFacts Codec CodecSpec CodecFacts Link LinkLayer Primitives Session SessionSpec SessionFacts SessionMain
  Handshake HandshakeSpec HandshakeFacts HandshakeMain HandshakePair PropHandshake Endpoint EndpointSpec PairSpec Line LineSpec PropLine Tunnel TunnelSpec TunnelFacts TunnelLive.

(** At any time, whatever the clients send and when, with any interleaving of the two proxies, any
    delays up to the limit and any sizes of the reads from the sockets: what came out at one proxy is
    the beginning of what the client of the other one sent, byte for byte. *)
Theorem C49_prefix : forall L c h x, compatible L c h -> tunnel_reachable L x ->
  (exists r, t_out (u_b x) ++ r = t_sent (u_a x)) /\ (exists r, t_out (u_a x) ++ r = t_sent (u_b x)).
Proof. intros L c h x OK R. exact (tunnel_prefix L c h OK x R). Qed.
Print Assumptions C49_prefix.

(** When there is nothing left to do for either proxy, everything the clients have sent was read and has come out. *)
Theorem C49_all_delivered : forall L c h x, compatible L c h -> tunnel_reachable L x -> proxy_at_rest (u_a x) -> proxy_at_rest (u_b x) ->
  all_through x /\ t_in (u_a x) = [] /\ t_in (u_b x) = [].
Proof. intros L c h x OK R. exact (tunnel_delivered L c h OK x R). Qed.
Print Assumptions C49_all_delivered.

(** The data being written to a client does not change until it is written, the receive buffer of a
    socket is not read into while its data is not transmitted, and no data of a client is refused. *)
Theorem C49_buffers : forall L c h x, compatible L c h -> tunnel_reachable L x ->
  (buffers_kept (u_a x) /\ never_refused (u_a x)) /\ (buffers_kept (u_b x) /\ never_refused (u_b x)).
Proof. intros L c h x OK R. exact (tunnel_buffers L c h OK x R). Qed.
Print Assumptions C49_buffers.

(** Whatever the proxies do and in whichever order, everything comes out in the end: some step can be
    made until it has, and after finitely many it has, unless they take so long that a message gets too old. *)
Theorem C49_inevitable : forall L c h x deadline, compatible L c h -> tunnel_reachable L x -> has_room L (u_a x) -> has_room L (u_b x) -> tunnel_in_time L deadline x ->
  tunnel_inevitable L (fun y => (deadline < u_now y)%Z \/ all_through y) x.
Proof. intros L c h x deadline OK R. exact (tunnel_gets_through L c h OK deadline x R). Qed.
Print Assumptions C49_inevitable.

(** The hypotheses hold: for all kinds of configurations, when both clients have sent data before the
    session is open *)
Definition tx_start (ka kb : frame_kind) (n : nat) : tunnel :=
  {| u_now := 0; u_a := client (new_station (n_ca (lx_net ka kb n))) [1; 2; 3; 4; 5]%N; u_b := client (new_station (n_cb (lx_net ka kb n))) [2; 3]%N |}.
Lemma tx_reachable ka kb n : tunnel_reachable (lx_net ka kb n) (tx_start ka kb n).
Proof.
  apply (tr_client_b (lx_net ka kb n) {| u_now := 0; u_a := client (new_station (n_ca (lx_net ka kb n))) [1; 2; 3; 4; 5]%N; u_b := new_station (n_cb (lx_net ka kb n)) |}).
  - apply (tr_client_a (lx_net ka kb n) (new_tunnel (lx_net ka kb n))); [constructor|]. repeat constructor; cbn; lia.
  - repeat constructor; cbn; lia.
Qed.
Lemma tx_room ka kb n : has_room (lx_net ka kb n) (u_a (tx_start ka kb n)) /\ has_room (lx_net ka kb n) (u_b (tx_start ka kb n)) /\
  forall deadline, (deadline <= 4000000000)%Z -> tunnel_in_time (lx_net ka kb n) deadline (tx_start ka kb n).
Proof.
  split; [apply Nat.leb_le; vm_compute; reflexivity|]. split; [apply Nat.leb_le; vm_compute; reflexivity|]. intros deadline Hd.
  split; [cbn; lia|]. split; [cbn; lia|]. split; constructor.
Qed.
Example C49_inevitable_instance : forall ka kb n, n < 4 -> tunnel_inevitable (lx_net ka kb n) (fun y => (4000000000 < u_now y)%Z \/ all_through y) (tx_start ka kb n).
Proof.
  intros ka kb n Hn. destruct (tx_room ka kb n) as (Ra & Rb & T).
  exact (C49_inevitable _ _ _ _ _ (lx_compatible ka kb n Hn) (tx_reachable ka kb n) Ra Rb (T 4000000000%Z ltac:(lia))).
Qed.
(** ... and there are states in which nothing is left to do, with the data of both clients delivered *)
Example C49_instance : forall ka kb n, n < 4 -> exists y, tunnel_reachable (lx_net ka kb n) y /\ proxy_at_rest (u_a y) /\ proxy_at_rest (u_b y) /\
  t_out (u_b y) = [1; 2; 3; 4; 5]%N /\ t_out (u_a y) = [2; 3]%N.
Proof.
  intros ka kb n Hn. destruct (tx_room ka kb n) as (Ra & Rb & T).
  destruct (tunnel_can _ _ _ (lx_compatible ka kb n Hn) _ (tx_reachable ka kb n) Ra Rb (T 0%Z ltac:(lia))) as (y & R & _ & S1 & S2 & Pa & Pb).
  exists y. destruct (C49_all_delivered _ _ _ _ (lx_compatible ka kb n Hn) R Pa Pb) as ([D1 D2] & _). split; [exact R|]. split; [exact Pa|]. split; [exact Pb|]. split; [rewrite D1; exact S1|rewrite D2; exact S2].
Qed.
