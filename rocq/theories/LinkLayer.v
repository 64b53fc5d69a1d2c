(** * LinkLayer: model of the link layer between the transport and the crypto layer *)
From Verif Require Import Base Crc Codec Link.

(** src/link/LinkLayer.h:31-58 together with the flags of its base classes
    IUpperLayer (include/ssp21/stack/IUpperLayer.h:125) and
    ILowerLayer (include/ssp21/stack/ILowerLayer.h:106).
    [ll_rx_queue] is the environment: the chunks the transport has received and not yet handed
    over; each call [lower->start_rx_from_upper()] returns the next chunk, or the empty sequence.
    [ll_remainder] is a seq32_t into memory of the transport; the model keeps the bytes it showed
    when it was obtained (ILowerLayer.h:44-46 promises that the slice stays valid until the next
    call or until the layer is closed). *)
Record link_layer := {
  ll_local : N; ll_remote : N;
  ll_open : bool;
  ll_processing : bool;
  ll_remainder : list N;
  ll_parser : link_parser;
  ll_rx_queue : list (list N)
}.

(** LinkLayer.cpp:6-11 *)
Definition new_link_layer (local remote : N) : link_layer :=
  {| ll_local := local; ll_remote := remote; ll_open := false; ll_processing := false;
     ll_remainder := []; ll_parser := new_link_parser max_config_payload_size; ll_rx_queue := [] |}.

Definition set_rx (l : link_layer) (rem : list N) (p : link_parser) (q : list (list N)) : link_layer :=
  {| ll_local := ll_local l; ll_remote := ll_remote l; ll_open := ll_open l;
     ll_processing := ll_processing l; ll_remainder := rem; ll_parser := p; ll_rx_queue := q |}.
Definition set_open (l : link_layer) (b : bool) : link_layer :=
  {| ll_local := ll_local l; ll_remote := ll_remote l; ll_open := b;
     ll_processing := ll_processing l; ll_remainder := ll_remainder l; ll_parser := ll_parser l;
     ll_rx_queue := ll_rx_queue l |}.
Definition set_processing (l : link_layer) (b : bool) : link_layer :=
  {| ll_local := ll_local l; ll_remote := ll_remote l; ll_open := ll_open l;
     ll_processing := b; ll_remainder := ll_remainder l; ll_parser := ll_parser l;
     ll_rx_queue := ll_rx_queue l |}.

(** LinkLayer.cpp:82-90 and 92-95: read_frame_one_iteration and parse; the flag is "continue". *)
Definition read_frame_one_iteration (l : link_layer) : outcome (bool * link_layer) :=
  match ll_remainder l with
  | [] =>
      match ll_rx_queue l with
      | [] => Ok (false, l)
      | ch :: q => Ok (negb (length ch =? 0), set_rx l ch (ll_parser l) q)
      end
  | _ :: _ =>
      let* (found, p, rest) := link_parse (ll_parser l) (ll_remainder l) in
      Ok (negb found, set_rx l rest p (ll_rx_queue l))
  end.

(** LinkLayer.cpp:70-79 get_frame; the while loop consumes fuel. *)
Fixpoint read_loop (fuel : nat) (l : link_layer) : outcome link_layer :=
  match fuel with
  | O => NoFuel
  | S k => let* (continue, l') := read_frame_one_iteration l in
           if continue then read_loop k l' else Ok l'
  end.
Definition get_frame (l : link_layer) : outcome (bool * link_layer) :=
  if has_result (ll_parser l) then Ok (true, l)
  else let* l' := read_loop (2 * length (ll_rx_queue l) + 3) l in Ok (has_result (ll_parser l'), l').

(** LinkLayer.cpp:39-50 start_rx_from_upper_impl *)
Definition ll_start_rx_impl (l : link_layer) : outcome (list N * link_layer) :=
  let* (found, l') := get_frame l in
  if found then
    match link_read (ll_parser l') with
    | Some r => if (f_destination r =? ll_local l')%N then Ok (f_payload r, l') else Ok ([], l')
    | None => UB
    end
  else Ok ([], l').

(** LinkLayer.cpp:57-60 discard_rx_data *)
Definition ll_discard (l : link_layer) : link_layer :=
  set_rx l (ll_remainder l) (link_reset (ll_parser l)) (ll_rx_queue l).

(** ILowerLayer.h:49-63 start_rx_from_upper *)
Definition ll_start_rx (l : link_layer) : outcome (list N * link_layer) :=
  let l1 := if ll_processing l then set_processing (ll_discard l) false else l in
  let* (ret, l2) := ll_start_rx_impl l1 in
  Ok (ret, match ret with [] => l2 | _ :: _ => set_processing l2 true end).

(** What happens at the link layer: the transport's notifications (public methods of IUpperLayer),
    the arrival of bytes in the transport, and the upper layer's read.  The upper layer is called
    in tail position in every callback (LinkLayer.cpp:15-35), so its re-entrant reads are the
    operations that follow in the sequence. *)
Inductive ll_op := LOpen | LClose | LTxReady | LRxReady | LArrive (chunk : list N) | LStartRx | LStartTx (data : list N).

(** What the neighbours see: calls on the upper layer, data returned by a read, data handed to
    the transport. *)
Inductive ll_out := UpOpen | UpClose | UpTxReady | UpRxReady | Data (payload : list N) | Transmit (data : list N).

(** LinkLayer.cpp:15-66 and IUpperLayer.h:26-84 *)
Definition ll_step (l : link_layer) (o : ll_op) : outcome (link_layer * list ll_out) :=
  match o with
  | LOpen => if ll_open l then Ok (l, []) else Ok (set_open l true, [UpOpen])
  | LClose => if ll_open l then Ok (ll_discard (set_open l false), [UpClose]) else Ok (l, [])
  | LTxReady => if ll_open l then Ok (l, [UpTxReady]) else Ok (l, [])
  | LRxReady =>
      if ll_open l then
        let* (found, l') := get_frame l in Ok (l', if found then [UpRxReady] else [])
      else Ok (l, [])
  | LArrive chunk =>
      Ok ({| ll_local := ll_local l; ll_remote := ll_remote l; ll_open := ll_open l;
             ll_processing := ll_processing l; ll_remainder := ll_remainder l;
             ll_parser := ll_parser l; ll_rx_queue := ll_rx_queue l ++ [chunk] |}, [])
  | LStartRx =>
      let* (ret, l') := ll_start_rx l in Ok (l', match ret with [] => [] | _ => [Data ret] end)
  | LStartTx data => Ok (l, [Transmit data])
  end.

Fixpoint ll_run (l : link_layer) (ops : list ll_op) : outcome (link_layer * list ll_out) :=
  match ops with
  | [] => Ok (l, [])
  | o :: ops' =>
      let* (l1, out1) := ll_step l o in
      let* (l2, out2) := ll_run l1 ops' in
      Ok (l2, out1 ++ out2)
  end.

(** ** How the stacks wire the link layer and the frame writer *)
(** include/ssp21/link/Addresses.h:15-36 *)
Record addresses := { a_destination : N; a_source : N }.
(** src/stack/LinkCryptoStack.h:78 and 144: the link layer of a stack *)
Definition stack_link (a : addresses) : link_layer := new_link_layer (a_source a) (a_destination a).
(** src/stack/LinkCryptoStack.h:82, 96-99, 148, 162-165: the frame writer of a stack *)
Definition stack_write (a : addresses) (w : writer) : option (list N * list N) :=
  link_frame_write (a_destination a) (a_source a) max_config_payload_size w.
