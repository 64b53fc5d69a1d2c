(** * Tunnel: two TCP proxies, back to back

    The unprotected side of a proxy session, cpp/exe/proxy/src/AsioUpperLayer.h and
    tcp/AsioTcpSocketWrapper.h, as the application of the crypto layer of its stack; two such proxies,
    one with an initiator and one with a responder stack, whose protected sides are connected by a line
    as in Line (the link layer and the bytes on the protected connection are the subject of C46).  What
    a client sends to one proxy is meant to come out at the other.

    - the executor runs one handler at a time: the completion of an operation on a socket is handled
      while no other call is in progress;
    - asio's async_read_some completes with between one byte and a buffer full, async_write after all
      bytes were written.  The bytes are those the buffer holds when the operation completes: a buffer
      that changes meanwhile is written as changed;
    - the sockets are open and no operation fails: this is one session (Proxy models the others). *)
From Verif Require Import Base Codec Link LinkLayer Primitives Session SessionSpec Handshake Endpoint EndpointSpec PairSpec Line.

(** LinkConstants.h:26-46, AsioTcpSocketWrapper.h:28: the size of the receive buffer of a socket *)
Definition socket_buffer : nat := N.to_nat 4108.

(** A proxy session: the stack; what the client has sent and the socket wrapper has not read;
    is_rx_active of the socket; is_tx_active with the data being written (AsioTcpSocketWrapper.h:78-105,
    123-124); what was written to the client; and, for the statements, everything the client has sent *)
Record station := { t_side : side; t_in : list N; t_rx : bool; t_tx : option slice; t_out : list N; t_sent : list N }.
Definition new_station (C : econf) : station :=
  {| t_side := new_side C; t_in := []; t_rx := false; t_tx := None; t_out := []; t_sent := [] |}.

(** AsioUpperLayer.h:39-61: the calls on the stack inside a notification.  on_lower_rx_ready_impl reads
    unless a transmission is in progress; the others do not call the stack. *)
Definition upper_calls (p : station) (i : instr) : list call :=
  match i with IUpRxReady => match t_tx p with None => [StartRx] | Some _ => [] end | _ => [] end.

(** AsioUpperLayer.h:39-42 on_lower_open_impl and 50-54 on_lower_tx_ready_impl start to read from the
    socket (AsioTcpSocketWrapper.h:43-76: nothing happens if that is being done) *)
Definition starts_rx (e : event) : bool := match e with EvUpOpen | EvUpTxReady => true | _ => false end.
(** AsioUpperLayer.h:30-35 try_read_from_crypto: the call returned data, which is written to the socket
    (AsioTcpSocketWrapper.h:78-105: it is dropped if a transmission is in progress) *)
Definition returned (e : event) : bool := match e with EvRead _ => true | _ => false end.
Definition upper_after (p : station) (d' : side) (ev : list event) : station :=
  {| t_side := d'; t_in := t_in p; t_rx := t_rx p || existsb starts_rx ev;
     t_tx := match t_tx p with Some sl => Some sl | None => if existsb returned ev then ep_payload (fst (d_conf d')) else None end;
     t_out := t_out p; t_sent := t_sent p |}.
Definition with_side (p : station) (d' : side) : station :=
  {| t_side := d'; t_in := t_in p; t_rx := t_rx p; t_tx := t_tx p; t_out := t_out p; t_sent := t_sent p |}.

(** A step of a proxy, when the other one sent [out] on the protected line *)
Inductive station_step (L : net) (C : econf) (off : Z) (out : list (Z * list N)) (now : Z) (p : station) : station -> Z -> Prop :=
(** the lower layer: as in Line *)
| st_open : snd (d_conf (t_side p)) = [] -> ep_open (fst (d_conf (t_side p))) = false ->
    station_step L C off out now p (with_side p (call_in (t_side p) LowerOpen (d_owed (t_side p)))) now
| st_sent : snd (d_conf (t_side p)) = [] -> ep_busy (fst (d_conf (t_side p))) = true ->
    station_step L C off out now p (with_side p (call_in (t_side p) LowerTxReady (d_owed (t_side p)))) now
| st_arrived : snd (d_conf (t_side p)) = [] -> ep_open (fst (d_conf (t_side p))) = true -> d_owed (t_side p) = true ->
    station_step L C off out now p (with_side p (call_in (t_side p) LowerRxReady false)) now
(** AsioTcpSocketWrapper.h:48-65 and AsioUpperLayer.h:66-70 on_rx_complete *)
| st_received data rest : snd (d_conf (t_side p)) = [] -> t_rx p = true -> t_in p = data ++ rest -> 1 <= length data <= socket_buffer ->
    station_step L C off out now p
      {| t_side := call_in (t_side p) (StartTx data) (d_owed (t_side p)); t_in := rest; t_rx := false; t_tx := t_tx p; t_out := t_out p; t_sent := t_sent p |} now
(** AsioTcpSocketWrapper.h:83-98 and AsioUpperLayer.h:72-77 on_tx_complete *)
| st_written sl bytes : snd (d_conf (t_side p)) = [] -> t_tx p = Some sl -> slice_bytes (fst (d_conf (t_side p))) sl = Ok bytes ->
    station_step L C off out now p
      {| t_side := call_in (t_side p) StartRx (d_owed (t_side p)); t_in := t_in p; t_rx := t_rx p; t_tx := None; t_out := t_out p ++ bytes; t_sent := t_sent p |} now
(** the stack runs, as in Line, and the upper layer reacts to it *)
| st_run s i rest inp t1 t2 s' pushed ev ms :
    d_conf (t_side p) = (s, i :: rest) -> (now <= t1 <= t2)%Z -> (t2 <= n_end L)%Z -> answers_step L off out (t_side p) i inp t1 t2 ->
    in_calls inp = upper_calls p i ->
    exec C s i inp = Ok (s', pushed, ev) ->
    Forall2 (fun f m => f = frame_of (e_kind (c_env C)) m) (frames ev) ms -> length (d_out (t_side p)) + length ms <= n_limit L ->
    station_step L C off out now p
      (upper_after p {| d_conf := (s', pushed ++ rest); d_trace := d_trace (t_side p) ++ ev; d_out := d_out (t_side p) ++ map (pair t1) ms;
                        d_taken := d_taken (t_side p) + takes ev; d_owed := d_owed (t_side p) |} ev) t2.

(** The two proxies *)
Record tunnel := { u_now : Z; u_a : station; u_b : station }.
Definition new_tunnel (L : net) : tunnel := {| u_now := 0; u_a := new_station (n_ca L); u_b := new_station (n_cb L) |}.
Definition told (before after : list (Z * list N)) (p : station) : station := with_side p (informed before after (t_side p)).
(** A client sends *)
Definition client (p : station) (data : list N) : station :=
  {| t_side := t_side p; t_in := t_in p ++ data; t_rx := t_rx p; t_tx := t_tx p; t_out := t_out p; t_sent := t_sent p ++ data |}.

(** What the proxies do *)
Inductive tunnel_calm (L : net) (x : tunnel) : tunnel -> Prop :=
| tc_a a' now' : station_step L (n_ca L) (n_oa L) (d_out (t_side (u_b x))) (u_now x) (u_a x) a' now' ->
    tunnel_calm L x {| u_now := now'; u_a := a'; u_b := told (d_out (t_side (u_a x))) (d_out (t_side a')) (u_b x) |}
| tc_b b' now' : station_step L (n_cb L) (n_ob L) (d_out (t_side (u_a x))) (u_now x) (u_b x) b' now' ->
    tunnel_calm L x {| u_now := now'; u_a := told (d_out (t_side (u_b x))) (d_out (t_side b')) (u_a x); u_b := b' |}.
(** The states they can get into, with any clients *)
Inductive tunnel_reachable (L : net) : tunnel -> Prop :=
| tr_new : tunnel_reachable L (new_tunnel L)
| tr_step x y : tunnel_reachable L x -> tunnel_calm L x y -> tunnel_reachable L y
| tr_client_a x data : tunnel_reachable L x -> bytes_ok data -> tunnel_reachable L {| u_now := u_now x; u_a := client (u_a x) data; u_b := u_b x |}
| tr_client_b x data : tunnel_reachable L x -> bytes_ok data -> tunnel_reachable L {| u_now := u_now x; u_a := u_a x; u_b := client (u_b x) data |}.
